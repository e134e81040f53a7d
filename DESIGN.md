# Formal model of pymalcolm: design

Source: `/repo` (dls-controls/pymalcolm, pinned). Nothing there is run; it is
read as text.  Model and proofs: `/verif/rocq/theories`, Rocq/Coq 8.16.1.

## Layout

For each area `X`:

* `X_Model.v` – definitions only; every definition cites file and lines in
  `/repo` and says where it simplifies.
* `X_Spec.v` (where the property needs vocabulary) – the specification, written
  without using the model's helper functions.
* `X_Proofs.v` – lemmas.
* `X_Props.v` – the theorems answering a property, each with an `Example`
  showing a concrete non-trivial case meeting its hypotheses and
  `Print Assumptions`.

## Conventions

* Python exceptions are values: `Err <kind>` in a result type, or an explicit
  outcome constructor.  An operation that raises half way returns the state as
  it was left.
* `OrderedDict`/`dict` (Python >= 3.7 keeps insertion order) are association
  lists with unique keys; `d[k] = v` on a present key keeps its position.
* Threads: every function that runs under a lock is one atomic step; a
  history is any list of steps.  Where code releases the lock (put/post
  functions, hooks) the other steps may come in between: the functions called
  there are parameters of the model, so theorems quantify over them.
* Floats are exact rationals (`Q`) or integers (`Z`) and this is said at
  the definition.  No claim is made on rounding of IEEE arithmetic.
* Strings are Coq strings (lists of 8-bit characters).

## Trusted base

Coq's kernel; the axioms listed by `Print Assumptions` under each theorem (aim:
"Closed under the global context" everywhere); and the reading of the Python
text that the model's citations make checkable.

## Plan per property

| id | what is modelled | how it is proved |
|----|------------------|------------------|
| C01 | StateSet built by the same `set_allowed` calls; transition; try_stateful_function; error state; Runnable methods as guarded step functions | induction over histories; graph stated as an independent list of edges |
| C02 | same | same, per-state case analysis for all histories |
| C03 | `_children_writeable` map, `set_writeable_in`, `add_block_field`, `transition` | invariant by induction over operations |
| C04 | `_handle_request`, `_handle_put`, `_handle_post`, `update_method_logs` with metas and write functions as parameters (Req_*) | case analysis on handler, for all write functions |
| C05 | same, over histories in which functions run with the lock released and end in any order | counting responses per request (Permutation) |
| C06 | objects with identity, NotifierNode tree, delta generation, client replay (Notify_*) | history invariant: the subscription tree refers to the block as it was when the group opened; replay by induction on the changes |
| C07 | same with Update requests | same |
| C08 | Notifier enter/exit/squash machine | invariant over nested histories |
| C09 | subscription bookkeeping and tree pruning | induction over histories, tree well-formedness |
| C10 | Context with queue, futures, requests, a stack of waits and callbacks (Ctx_*) | invariants over all histories: ids and futures, what each wait on the stack still has to see |
| C11 | same queue with STOP/ignore tokens | queue = what was placed minus what was taken; position of the sentinel |
| C12 | register_hooked, on_hook, start_hooks; wait_hooks as a machine with the threads of the hooks and timeouts (Hook_*) | invariant over all interleavings; a measure for the answer |
| C13 | get_steps_per_run, _get_outer_steps | arithmetic induction on dimension lists |
| C14 | scan bookkeeping machine | invariant over histories |
| C15 | same, ranges asked of the parts | induction over runs |
| C16 | update_completed_steps | induction over reports |
| C17 | validate loop, validators as parameters | induction on rounds |
| C18 | MapMeta.validate | list induction |
| C19 | Choice/Boolean/String validate | case analysis |
| C20 | Table | list induction |
| C21 | tag printer/parser with the regex as a greedy matcher | string induction |
| C22 | Mgr_Model: do_save, do_load, the file as dicts, on_save, on_load with iterations; values, JSON and validation are parameters | round trip over any history in between (Mgr_Props) |
| C23 | Mgr_Model: update_modified, send_modified_info_if_not_equal, _mark_clean | invariants over histories; exactness after a save that follows a change is refuted |
| C24 | Mgr_Model: set_layout, on_layout with severing and part_visibility | list induction, for any history |
| C25 | add_controllers/get_controller, add_part, FieldRegistry, CAMEL_RE, update_block_endpoints of a manager (Reg_*) | invariant over additions; exact conditions of acceptance |
| C26 | add_seq_entry | arithmetic |
| C27 | split, _get_tables, double buffer | induction on rows; expansion semantics |
| C28 | _create_immediate_rows, get_rows | run-length coding round trip |
| C29 | profile arrays: add_profile_point, amend of insert_gap, write_profile_points (Pmac_*) | the state holds one list of entries; simulation by each operation |
| C30 | tick conversion | invariant on the overflow, induction |
| C31 | cs_axis_mapping | list induction, exact condition |
| C42 | every-point profile: on_configure, update_step, batches, tail off | simulation against the ideal list of requests, any reports |
| C32 | bit packing on Z | bitwise lemmas |
| C33 | line buffering and response matching | chunk independence by induction |
| C34 | bit_out toggling | invariant over polls |
| C35 | MalcWebSocketHandler, validators, report_handlers (Web_*) | case analysis and an invariant over message histories; subnets stated bit by bit |
| C36 | websocket client: both threads as steps, the fault's loop turn by turn (Web_*) | invariant over histories: each request is waiting or has ended once; the n-th sent has id n |
| C37 | setup_detector and the driver's hooks, setup_plugin, load_more_positions, _make_xml (Det_*), driven by the asks of Scan_Model | invariant over every polite history of a scan; the ids the camera makes are counted separately |
| C38 | ExposureDeadtimeInfo, both parts' on_validate, the rounds of a detector's validate, guessed frames (Expo_*), on Q | linear arithmetic, case analysis of the rounds |
| C39 | update_health | invariant over histories |
| C40 | loadFile, update_scans_configured, run, run_scan_set, run_scan, abort (Runner_*); what happens to each scan is a parameter | induction over scan sets and repeats |
| C41 | triggered rows and last_point | index induction over row starts |
| C43 | When | induction on the values |
| C44 | callbacks of the context | invariant over all histories |
| C45 | logs of a method (Req_*) | case analysis |
| C46 | sever_sink_ports, calculate_part_visibility (Mgr_Model) | invariant "every part knows which others are shown" over histories |
| C47 | _on_response (Web_*) | ids kept are distinct; induction over responses |
| C48 | DetectorChildPart: _configure_args, on_run, on_seek, update_completed_steps (Twin_*) between two copies of Scan_Model | simulation over histories, the child may end its run first |
| C49 | PandABussesPart: create_busses, handle_changes, set_bits, set_positions, get_column_changes, with the dataset columns (Bus_*) | simulation of the column tables by independent rows, induction over histories of polls and puts |
| C50 | Model.set_notifier_path, set_endpoint_data, BlockModel and the Controller's publishing (Tree_Model): objects with identity on a heap | invariant over all runs (Tree_Proofs .. Tree4_Proofs): location iff notifier and path; announced changes are the differences; three findings |
| C51 | create_dataset_infos, make_set_points, make_nxdata, make_layout_xml, _write_additional_hdf (Hdf_Model): the XML tree, positions as rationals with the text format a parameter | Hdf_Spec reads the tree back as paths with contents and group attributes; layout_contents gives them in closed form, the theorems follow; hypotheses on the generator (axes_ok) are those of scanpointgenerator |
| C52 | set_dimensions (Hdf_Model) | by cases on the at most 10 dimensions, for all sizes |
| C53 | PandADatasetBussesPart.on_report_status, NDAttributeDatasetInfo.from_attribute_type, DetectorDriverPart.on_report_status (Hdf_Model) | membership against a table written out; composed with C51_once |
| C54 | files_shape (Odin_Model) | closed form of the rounds and remainders; Odin's dealing written out as a list of the frames of each file |
| C55 | create_dataset_infos, create_raw_dataset_infos, create_vds, add_nexus_nodes, on_configure of OdinWriterPart and XspressWriterPart (Odin_Model): the file as a map of paths to links, virtual datasets and values; vdsgen is modelled by what it is called with | a spec relation 'reads' that follows links; membership case by case |
| C56 | on_configure, on_post_run_armed, on_seek, on_run, update_completed_steps of the three writers (Count_Model); the readback is an input | invariant over histories against counters kept by the user |
| C57 | on_validate, get_aligned_duration_with_servo_frequency, calculate_generator_duration (Motion_Model); the axis mapping and first two points are inputs | arithmetic over Q with ceiling and floor |
| C58 | point_velocities, move_to_start, run-up time, tail off (Motion_Model, Pmac_Model); the time of the move to the start is not | algebra of uniform acceleration |
| C59 | profile_between_points, calculate_profile_from_velocities, insert_gap without the writing to the profile (Motion_Model); make_velocity_profile is a parameter with the contract library of Turn_Spec | sorted union of times; induction over the intervals with the axis's place between its nodes; max over rounds |
| C60 | _how_long_moving_wrong_way (Motion_Model) | last node by induction; monotone motion over a suffix of the nodes |
| C61 | _what_moves_most, in_cts, setup_pcomp_dicts (Motion_Model) | invariant over the rows; maximum |
| C62 | `_handle_response`, `_handle_change`, `_regenerate_block`, `BlockModel.set_endpoint_data`, `remove_endpoint`, `_update_fields`, `Model.apply_change` (Proxy_Model.v), fed with what the notifier model of C06 sends; type checks of setters and the deserialisation are not modelled | invariant (proxy fields equal the fields of the client copy) by induction over changes and messages, composed with `C06_replay_is_current` |
| C63 | `_make_export_field.update_field` with `apply_change` (Proxy_Model.v); tag stripping is a function on the value of tags | the export and the copy look alike except at tags and label: induction over changes and messages, composed with `C06_replay_is_current` |
| C64 | `replace_substitutions`, `str.replace` (Yaml_Model.v); values after str() | token view of a text; induction over the substitutions, each one turning references into literals |
| C65 | `_create_takes_arguments`, `_create_defines`, `_create_blocks_and_parts`, `make_block_creator`, `make_include_creator`, `creator_with_nice_signature`, `substitute_params` (Yaml_Model.v); the files are a tree, all values strings; constructors of parts and controllers and refusal of equal part names not modelled | structural induction over the tree of files; dictionaries by lookup lemmas |
| C66 | kinematicssavupart.py on_configure, create_vds_file; cs_axis_numbers; cs_axis_mapping as in C31 (Savu_Model) | exact acceptance by induction over axes and rows; announced datasets against the contents of the VDS file; three refutations |
| C67 | kinematicssavupart.py on_post_configure, parse_input_variables, check_mres_and_pos, create_files (Savu_Model) | induction over infos (last match), over words (last value), axes (adjusted values); two refutations |
| C68 | Beam_Model: init, check_detector, find_exposures, exposure_times, min_turnaround, times_at, on_validate, on_configure, tail (beamselectorpart.py, pmac/util.py 333-382) | invariant of the table loop; induction on the number of cycles; resumed scans characterised and refuted |
| C69 | Traj_Model: write_profile, start_build, fill, taken, writes, execute_returns (pmactrajectorypart.py) | case analysis of one call; induction on the list of appends |
| C70 | Ports_Model: make_choices, fields, update, reconnect, put_values, after_put, compound, source_values | invariant over the readings; parsing lemmas on strings |
| C71 | Ports_Model: cs_accepted, cs_method, called_method, move (cspart.py, pmacchildpart.py 295-299) | string suffix lemmas; the list of puts is characterised |
| C72 | PField_Model: make_all and the functions it calls, snake_to_camel (pandablockcontroller.py 52-72, 154-366, camel.py) | make_all is shown equal to a fold of the entries of PField_Spec.shows; camel is injective on snake names by induction |
| C73 | PField_Model: handle_change, block_changes, mux_tags, route_all, and the machine of sets and polls (pandablockcontroller.py 99-152, pandamanagercontroller.py 239-312, pandafieldpart.py) | a change is split off the batch; the routing is compared with last_report; invariant of the machine |
| C74 | PPoll_Model: poll_round, poll_loop (pandamanagercontroller.py 116-150) | invariant: next_poll is the last poll and a period, in Q |
| C75 | PPoll_Model: life, lstep (pandamanagercontroller.py 90-115, 152-213) | invariant of the state machine |
| C76 | Proc_Model: add_tree, make_tree, walk, publish, register, pstep (process.py 75-140, 213-233); hooks are a function telling which controllers are silent | depth first search invariant with a measure; ranks bound the walk; invariant over histories |
| C77 | Proc_Model: spawn, tstep, wstep (process.py 160-211, concurrency.py 24-73); list objects with identity in the loop of stop | invariant over all interleavings |
| C78 | Dval_Model: configure_args, on_validate, new_table, apply_tweaks, hooks, validates (detectorchildpart.py 139-304, runnablecontroller.py 354-416); the order of answers is any permutation; child's validate is a function, det_validate of Expo_Model for detectors | each round settles one part; induction on the rounds |
| C79 | Trans_Model: filter_parts, filter_values, filter_single_value, translate_filepath, make_xml_filename with Python's str.replace, also for an empty pattern. Info classes other than the translator are opaque; os.path.join only for a second part without a leading slash. | Acceptance by an explicit shape of part_info; replacement by induction on the string; injectivity of the character swap. |
| C80 | Pulse_Model: on_validate, on_configure, on_post_configure of PandAPulseTriggerPart; the other blocks as what is read of them; a put to an export as a put to its source. The PULSE block itself (what a trigger makes) is in the specification. Attributes set before an error are not kept. | Acceptance by characterising the loop over the exports (sound, complete, what is missing); timing by linear arithmetic over rationals. |
| C81 | Drv_Model: the exposure and acquirePeriod of DetectorDriverPart.setup_detector over the hooks, AndorDriverPart.on_validate and setup_detector, ReframePluginPart.on_validate and postCount, TetrAMM valuesPerRead, XMAP pixelsPerRun. Floats are rationals (int(2/f*f) is 2 here); the answers of the IOC (readout time, accumulate period) are inputs. | On top of C38_chosen; floor and ceiling characterised by bounds; linear arithmetic. |
| C82 | PLay_Model: panda_set_layout, the handling of *METADATA.LAYOUT, over the manager of Mgr_Model with the layout that the device keeps (pandamanagercontroller.py 272-286, 314-335). The order of a set is any permutation. The text of the JSON, the splitting in lines and the loss of the connection are left out | invariant over all sequences of operations: _json_layout is the device's layout as a map, and each row of the table shows it; dict comparison is shown to be equality of maps |
| C83 | PName_Model: the building of _child_controllers, pos_names and _bus_fields, and the calls of handle_changes of the blocks (pandamanagercontroller.py 160-207, 288-312), with route of PField_Model. Bits are in Bus_Model; the fields are given by their type only | the digits at the end of a name determine its number, so that the map is functional; with C73_routed for the batches |
| C84 | pvaconvert.py: type_specifiers, convert_to_type_tuple_value, convert_dict_to_value, convert_value_to_dict, update_path as functions between three kinds of trees (Pva_Model) | induction over the tree: what is read back is `seen` of what was sent; sendable values characterised exactly |
| C85 | BlockHandler.handle, _create_initial_value, _update_value, onFirstConnect, onLastDisconnect (Pva_Model); setting a field of p4p is modelled as: a structure is set item by item, other types must match | invariant (open PV = block, names unique) over all histories; refuted for dicts with fewer items |
| C86 | BlockHandler.put, rpc, put_paths; PvaServerComms.testChannel, _make_channel, publish, do_init, do_disable; PvaClientComms.send_post (Pva2_Model); testChannel and makeChannel are one step | iff statements for put and rpc; invariant of the kept PVs over all histories |
| C87 | PvaC_Model: _update_settable_fields, _regenerate_block, _update_block, callback, the queue of sync_proxy and send_put of pvaclientcomms.py. p4p (Value, monitor) is external: a value is the serialized tree, with the list of marked paths; the order of the Python set is any function that keeps the members | C87_follow by an invariant over the history (the block is in step with a tree that looks like the last value; update_fields are the terminals of a block of the same shape), C87_lost, C87_synced; two findings |
| C88 | Lut_Model: LUT_CONSTANTS, _calc_visibility, _generate_lut_elements, get_lut_icon_elements of pandaluticonpart.py; sets of names as lists, the dict as an association list | C88_true: every entry of the table is checked by computation against the truth table, other FUNC values go to the LUT icon; C88_gates, C88_not: a number is determined by its 32 bits, so a FUNC with that truth table is the key computed |
| C89 | ca/util.py 107-177, 228-273: _update_value, the end of _monitor_callback as a function of the time, reconnect and caput as events; cachoicepart, wait_for_good_status with the times of the status values. Not modelled: catools itself, limits, user callbacks | induction on the list of times with the room left as potential (rate); induction on histories from the end |
| C90 | ca/util.py 155-166, 276-369: CATable and _monitor_callback with an index; the time stamp is left out, and the ca_nothing that stays in a column | induction on histories from the end |
| C91 | update_configure_model, update_configure_params with any history of reports, create_info, MapMeta.validate, the defaults in validate, ConfigureParams, Hook.__call__, on_layout of DetectorChildPart. Types and values are simplified; returns, labels and tags are left out | induction on the lists of infos with what the folds keep for each name; histories from the end |
| C92 | UnrollingPart, SimultaneousAxesPart, DoubleTriggerPart in the loop of validate with other parts that change the duration, tweaks in any order (Unroll_Model) | invariant over the rounds; at most three rounds by cases on what is already squashed and settled; the squashed dimensions and get_steps_per_run of Scan_Model compared by induction over the dimensions |
| C93 | the threads of RunnableController: configure, run, reset in one, pause, abort, resume, disable in two others; shared contexts, abort_queue, resume_queue, all hooks, AttributePreRunPart (Thr_Model). A step is a locked section, a queue operation, or the start or end of a hook; a hook is a start, an end, and the put of the shutter | C93_quiet, C93_closed: an invariant of 19 fields kept by every step of a considerate use (Thr_Proofs.exec_inv); C93_answered: a second invariant of 7 fields and a measure of the steps left (Thr_Live): a pause or abort that waits is answered; C93_graph checks the written out transitions against C01's RunnableStates; the seven refutations give the interleaving |
| C94 | ChildPart.update_part_exportable (subscriptions, ports, what is reported) and the exports of ManagerController: update_exportable, the layout's visibility, set_exports, load, _get_current_part_fields, update_block_endpoints (Xport_Model) | Induction over histories of child updates for the part, and over histories of reports, layouts, exports and loads for the manager; the specification says which fields came, left and were last reported, and which exports have a visible source, without the model's tables. Two _refuted theorems give the histories in which the claim fails. |
| C95 | Ioc_Model: dirparsepart.py (parse_release with its in-place replacement loop, version_updated, set_procserv_state, set_dir1/2), ProcessController.py (bl_iocs, get_ioc_list); files of the directory as a function, PV updates as events | spec: what a line gives, stands_for (inductive expansion of references), last good value; invariant: the names done are gone from every value that can be expanded, and values keep what they stand for at the same depth |
| C96 | SeqT_Model: pandaseqtriggerpart.py (_get_blocks, on_configure as steps that can be stopped, on_pre_run, on_run with the double buffer of Seq_Model, on_abort, on_reset, post_inner_scan) and the hooks of runnablecontroller.py as phases | invariant over all histories: every table written in on_configure with its gate shut, only the PandA in use may be open, quiet phases are shut; _get_blocks characterised both ways |
| C97 | FileWritePart: on_configure, on_run as a list of writes, flushes and reports stopped after any of them, on_seek, on_reset, _write_data with resizes, _create_infos; DatasetTablePart (Demo_*) | invariant over histories; what a reader sees is a prefix of the log |
| C98 | CounterMovePart.move with a clock that is a list of readings; MaybeMover and MotionChildPart for one axis (Demo_*) | induction on readings and steps; linear arithmetic |
| C99 | core/views.py as a whole; set_endpoint_data and remove_endpoint of BlockModel with what stays done when they raise; add_method_model and the context wrapper of add_block_field (View_Model) | invariant over all histories with refusals (a model with a notifier is the field at its path), a stronger one over histories without; lookup order of Python for camelCase names; induction over arguments, items and nested data; seven findings |
| C100 | Hlife_Model: on_configure and on_reset of the HDF writer as lists of acts (puts, waits, the layout file, start, the demand position file) that may raise at any act, in the states of the detector | Invariant over all histories; the settings by the dictionary of the plugin; injectivity of the file name by induction on strings |
| C101 | Stall_Model: on_run, frame_timeout, _flush_if_still_writing, _has_file_writing_stalled, update_completed_steps over timed events (updates, ends of the one second wait with the state of start) | The loop goes on iff a declarative condition on the events so far holds (induction from the right); each end is decided by one event |
| C102 | compat.et_to_string with ElementTree's escaping, build_attribute_xml, set_extra_attributes, _make_attributes_xml of StatsPluginPart, make_layout_xml (Hdf_Model), and the attribute file over configures and resets (Xml_Model); text is bytes, the encoding of the file is not modelled | an independent reader of XML (Xml_Spec: names, references, white space in values, no name twice, matching end tags) is shown to give back every good tree, by induction over trees; the files are good trees; the life of the file by an invariant over histories |
| C103 | setup_detector, arm_detector, abort_detector, wait_for_detector and the hooks of DetectorDriverPart over an areaDetector that counts down numImages (Arm_Model, on Det_Model); not modelled: timeouts, puts that fail, the time that starting and stopping take | the course that the controller follows (spec: phases and what may come next, in Arm_Props) and an invariant on counter, images left and acquiring, by induction over the course |
| C104 | Pq_Model: the requests of PandABlocksClient and the reading of answers (pandablocksclient.py 181-372), over any server | Pq_Spec: a device, how it answers requests and how it reads commands; C104_blocks, C104_table, C104_bits by evaluation of the client against the served device (lemmas on words, splits and numbers, insertion sort); C104_changes, C104_sets, C104_set_table by induction over lines |
| C105 | Whole_Model: the scan block of C13-C16 (Scan_Model) with the detector of C103 (Arm_Model); each call passes the hooks it runs to the detector, triggers come in runs | The course C103 assumes is derived: an invariant relates the state of the scan to the phase of the detector; frames are counted by induction. Left out: failing hooks, a pause in POSTRUN, refused configure (ends in Fault) |
| C106 | Trio_Model: Whole_Model with the numbers of the HDF writer (Count_Model, C56) and the number of frames between detector and file; what the writer reports goes to the block | An invariant relates readback, offset and target of the writer to the run of the block. Left out: stalled writing (C101), failing hooks, dropped frames, a second detector |
| C107 | Fly_Model: Scan_Model with the PMAC part (Pmac_Model, C42) and the trajectory that it executes, for every-point triggers | An invariant relates the sent profile, the points passed and completedSteps; C42 gives the signals of a whole profile. Left out: abort, reset, a part without motors to move, failing moves to the start, the other trigger modes |
| C108 | Cs_Model: get_motion_axes, cs_port_with_motors_in, get_motion_trigger, get_cs_port, on_configure, on_run and on_abort of the PMAC part as a list of calls; the mapping (C31), positions (C58) and method (C71) are those of Pmac_Model, Motion_Model and Ports_Model | The theorems of these compose; induction over histories. Left out: the time of the move to the start, what a run appends (C42, C107) |
| C109 | Puts_Model: the attributes the block YAMLs make (settings, other writable, read only), no_save of each part class, the names each call puts (with what it depends on: exposure, deadtime, gated, build or append, axes), puts carried out until one fails; composed with Mgr_Model. Values are arbitrary; actions (start, delete, build) are left out | Puts_Props: names by computation over the finite tables, axes by inclusion in the widest call; then induction over the puts with the invariant that an attribute out of the design tells nobody and leaves structure as it is |
| C110 | Pmac_Model.v (profiles, sparse and full, written in blocks and extended as steps are reported) | PTime_Props.v: time account kept by induction over the points, the batches and the reports; the drift of rounded ticks is at most half a tick per block; the row lemma by induction over the points of a straight row |
| C111 | Sparse_Model.v (velocity, same_pair, joined_pair of pmac/util.py); the profile is that of Pmac_Model with these two functions (C110_straight_row) | Sparse_Props.v: induction over the row for the drift of velocity and the way gone; the witness of the refutation is a parabola of 2m points, each 1e-5 faster than the one before |
| C112 | Rest_Model: RestfulHandler (get, post, report_request, queue_response, handle_response), update_request_received, the requests on their way to their controllers and the loop of tornado, on top of the blocks of Req_Model | invariant over histories: for each HTTP request the places it is in add up to one (counting with step_counts of C05), and every response in the loop or replied has a moment at which its block gave it; GET and POST read off from it |

## Not modelled

Wire formats (cothread, tornado, p4p, CA), threads' real scheduling below the
lock granularity, IEEE rounding, numpy dtype overflow, logging, file system
errors, YAML/JSON text syntax, scanpointgenerator internals (a generator is
its dimensions, size, durations and positions).

## Findings

Each is a theorem of the model (name in brackets) with a concrete witness.

* Fields are writeable before the first state transition [C03_before_first_transition_refuted].
* `get_steps_per_run` counts an axis-less dimension twice
  [C13_axisless_dimension_refuted] and accepts a zero breakpoint
  [C13_zero_breakpoint_refuted].
* `pause(lastGoodStep)` to a step outside the current run, while active, leaves
  counters that make configured steps exceed the total, or finish with steps
  left to do [C14_seek_out_of_run_refuted, C15_seek_out_of_run_refuted].
* `add_seq_entry` with a positive multiple of 4096 appends a row with repeats 0,
  which the hardware loops for ever [C26_multiple_of_4096_refuted]; a scan with
  4096 equal points without axes hits it [C28_run_of_4096_refuted].
* `SequencerRows.split` subtracts seconds from ticks, so the duration it leaves in
  the truncated rows is wrong; unused afterwards [C27_split_duration_refuted].
* A scan row crossing a 5000 point batch boundary leaves `last_point` stale, so
  the blind time before the next row is computed from the wrong point
  [C41_stale_last_point_refuted].
* A PandA table field that is signed and not 8, 16 or 32 bits wide reads back
  without its sign [C32_signed_narrow_refuted]; a table whose top bit is a multiple
  of 32 cannot be written (IndexError) [C32_top_bit_32_refuted].
* The PandA client decodes each packet on its own: a multi-byte character cut in
  two kills the receive thread [C33_split_character_refuted].
* Two reports of one bit in one poll can leave the shown value wrong for ever
  [C34_two_reports_refuted].
* A table attribute of which only some columns change leaves the node of
  `attr.value` with the old table: its Update subscribers, and every later
  subscriber of that path, get the old columns
  [C07_partial_table_refuted, C06_partial_table_refuted].
* A subscription to a path through a dict (`meta.elements.x`) is told None
  although Get finds a value [C07_through_dict_refuted].
* A subscriber of the whole block gets an Update (or an empty Delta) for a group
  that changed nothing [C07_empty_group_refuted].
* A callback that raises keeps the rest of the group from every subscriber after
  it [C08_raising_callback_refuted].
* The same callback and id subscribed twice: unsubscribing ends the second only
  and the first can never be ended [C09_same_key_refuted].
* A choice attribute with no choices takes None to "" and then refuses ""
  [C19_no_choices_refuted]; choices mixing a string with an Enum member of that value
  are accepted, and the string can not be kept [C19_mixed_choices_refuted].
* `Table.from_rows` accepts short rows and gives a ragged table
  [C20_short_row_refuted]; a table attribute without columns refuses its own default
  [C20_no_columns_refuted].
* A port tag whose value has a colon can not be read back: ValueError. A manager block
  makes such a tag of its own mri, and mris have colons [C21_colon_refuted]; a newline
  cuts the value [C21_newline_refuted].
* A subscription callback that itself waits: two responses of the wait below taken by it
  leave that wait going for ever (a list changed while iterated over)
  [C10_callback_waits_refuted], and an error among them is lost: the wait returns as if all
  was well [C10_swallowed_error_refuted].
* `wait_all_futures` with the same future twice never returns
  [C10_same_future_twice_refuted].
* On an error `wait_hooks` tells all parts to stop, also those that have already ended
  [C12_stops_finished_refuted]; the stop stays on their context, and the next hook ignores it
  (C11). If a part aborts on its own the others are not told to stop, and the caller may get a
  TimeoutError in its place [C12_lone_abort_refuted].
* If the arguments of one part's hook are missing, `start_hooks` raises and the hooks started
  before it run on, waited for by nobody [C12_bad_start].
* A Put or Post uses only the second element of its path: a Put to `x.meta.label` sets the
  value of `x` [C04_deep_path_refuted].
* A method that has done its work but returns something its meta refuses is answered with an
  Error; its log of what it took is new, that of what it returned is old
  [C05_result_misfit_refuted].
* `add_controllers` with a list whose later mri is taken leaves the earlier controllers
  registered and never started [C25_half_registered_refuted]; a part refused for one of its
  fields leaves the fields before it in the block [C25_half_part_refuted].
* Exports are only checked for camelCase: one named like a field of the manager (`save`)
  replaces it, and removing the export removes it for good [C25_export_replaces_refuted]; two
  of the same name are accepted, and every later change of the exports raises
  [C25_same_export_refuted].
* Field names may end in a newline [C25_newline_refuted].
* A child part keeps its modified messages over a save: the next change it reports lights
  the light again for settings that are as saved [C23_stale_refuted].
* A child that makes another value of what a load puts differs from the saved design with
  the light off [C23_settled_elsewhere_refuted].
* A design file keeps exports by source: of two exports of one field one is lost
  [C22_same_source_refuted].  Design names are cut at ".json", so "foo" and "foo.json.bak"
  share a file [C22_same_file_refuted].
* A part shown by `initial_visibility` only is not known to be shown by the other parts: a
  connection made to it later stays when it is hidden [C46_initial_visibility_refuted].  Layout
  rows with an empty name, shown then hidden, cut every connection [C46_empty_name_refuted].
* A websocket client whose address is not IPv4 (nor ::1) gets no answer at all: `inet_aton`
  raises before the `try` [C35_ipv6_unanswered_refuted].  A subscription id can not be used again
  on a connection after Unsubscribe, nor after a Subscribe that was refused
  [C35_id_not_freed_refuted].
* A request that the websocket client is given while disconnected is remembered, not written
  and never answered; `send_put` and `send_post` wait for it without timeout
  [C36_sent_while_down_refuted].
* `_report_fault` leaves an item in the queue on which `_start_client` waits: a reset after the
  server was lost returns before the connection is made, and its subscription to the server's
  blocks is lost [C36_reset_does_not_wait_refuted].
* A frame that has no room for the readout is accepted with the minimum exposure, given or
  chosen [C38_short_frame_refuted].  With several frames per step and neither duration nor
  exposure given, the duration that the detector proposes is for the whole step, but its next
  round takes it for one frame: the exposure is too long for the frames [C38_several_frames_refuted].
* With several frames per step, `DetectorChildPart.on_seek` passes the parent's step to
  `child.pause` without multiplying it: after a pause at step 4 a child with 5 frames per step
  is set up for frames 4 to 50 instead of 20 to 50 [C48_seek_refuted].  Breakpoints are passed on
  in the same way [C48_breakpoints_refuted].  A scan that moves no axes can not be configured
  with several frames per step [C48_no_axes_refuted].
* The scan runner: two scans of one name in a file, the first is lost [C40_same_name_refuted]; a
  negative `repeats` is taken off scansConfigured [C40_negative_repeats_refuted]; after a load that
  failed half way `run` runs the scans before the bad entry, with the scansConfigured of the file
  before [C40_failed_load_refuted].  `abort` ends one wait of the context, so the scans after the
  one in progress still run and the runner ends Finished [C40_abort_refuted].
* PandA bus tables: a put of a new scale or offset is shown beside the value by the old one until
  the device reports that row again [C49_stale_value_refuted].  A capture word holds many bits: the
  table shows two bits of a word captured apart [C49_word_shared_refuted], and a put that names one
  bit turns off the capture of its word mates while the table goes on showing them captured
  [C49_word_mates_refuted].  A row with an unknown name is ignored with a warning, but the whole put
  is a KeyError when it also changes a capture [C49_unknown_row_refuted].
* C50: set_endpoint_data takes the notifier from the old child before it knows that the new one is accepted (models.py 108-123), so after an exception the old child stays in the block but is silent (C50_failed_set_refuted).  A Model that is in a block can be given to a parent that is in none; nothing is raised, and it becomes silent in its block (C50_borrowed_refuted: the assertion of models.py 59-63 only covers a notifier that is not the dummy).  BlockModel.set_endpoint_data adds the name to call_types before the Model is attached; if that raises, the name can never be used (C50_refused_name_refuted).  Not modelled: a field named "notifier" or "path" would overwrite those of the Model.
* C51/C53: nothing checks that dataset names are distinct. Two PandA rows with one dataset name are both reported and the layout then has two groups with one path (C51_twice_refuted); an attribute with the formatName of the detector is announced under the same name as its data (C51_same_name_refuted). With capture "Min Max" the name goes into infos without the PART_NAME_RE check that every other capture makes (C53_unchecked_refuted).
* C51: the group of an attribute gets as many axes as the primary data (hdfwriterpart.py 329-360) while the dataset is announced with the rank of the generator (99-121), so the two never agree for a detector of rank > 0 (C51_rank_refuted).
* C54: files_shape adds the remainder over whole blocks to every file: 4500 frames in blocks of 1000 to 4 files give 1625, 1125, 1125, 1125 (5000 in all) instead of 1500, 1000, 1000, 1000 (C54_blocks_refuted); right exactly if frames mod (files*block) < files (C54_right_iff).
* C55: one raw and uid dataset more is announced than made (C55_raw_refuted); a secondary_set other than 'sum' is announced but not made (C55_secondary_refuted); /entry/xspress/uid is announced but not made (C55_xspress_uid_refuted); with fewer Xspress channels than files channel 0 is linked to the second file (C55_few_channels_refuted).
* C56: with num_pairs > 1 XspressWriterPart reports pairs * steps as completed steps (C56_pairs_refuted); a readback that passes the awaited value never ends the run (C56_passed_refuted).
* C57: at a servo frequency other than 3200 Hz the aligned duration can be shorter than that asked for (5000 Hz, 0.1 s gives 0.099998 s); calculate_duration_from_first_two_points lacks abs(), so an axis that goes down is guessed one microsecond (pmacchildpart.py 269-293).
* C58: the run-up position of each axis is for its own acceleration time, but the profile gives all axes the time of the slowest; a faster axis that accelerates uniformly over it arrives with less than its velocity (pmacchildpart.py 295-327).
* C59: profile_between_points takes the entry velocity of the point left and the exit velocity of the next (util.py 256-257); for accelerating points these are not the velocities at the ends of the gap.  If the slowest axis needs longer than the minimum by less than np.isclose sees, the arrays end at different times and calculate_profile_from_velocities raises IndexError.
* C60: an axis that turns between two nodes still moves the wrong way after the blind time; the turnaround is computed from the axes wired to the PandA only, so with a slower axis not wired the blind time is too short (pandaseqtriggerpart.py 74-106, 368-410).
* C62: `_handle_change` (websocketclientcomms.py 194-199) uses `path[1]` of a path of length one, so adding or removing a field of a remote block raises IndexError in the client and the proxy never changes; a change of one column of a table ends in `Table.apply_change`, which does not exist; the rest of the Delta is lost. Witnesses: C62_added_refuted, C62_removed_refuted, C62_column_refuted, C62_rest_lost_refuted.
* C63: an exported field does not follow its source when the source field is replaced as a whole (apply_change with an empty path asserts) or when a table changes in one column; a change of the source's tags puts the config tags back into the export. Witnesses: C63_replaced_refuted, C63_column_refuted, C63_tags_refuted.
* C64: `replace_substitutions` does not look into mappings (yamlutil.py 313-318: only MutableSequence and str), and is order dependent if a value contains a reference. Witnesses: C64_mapping_refuted, C64_nested_refuted.
* C65: a parameter default such as `$(yamldir)/f` is substituted in `_create_defines` (60-64) and then overwritten by `defines.update(params)` (65-66), because `creator(locals())` always holds the default of the signature, which was made by `instantiate({})` (24) without substitution. Witness: C65_default_refuted.
* C66: kinematicssavupart.py 189 asserts the truth of a row number, so a motor whose position is in row 0 of the positions table is refused (C66_first_row_refuted).
* C66: kinematicssavupart.py 147-151 keeps the port of the first scan in cs_port, so a later scan of another coordinate system uses the motors of the first (C66_port_refuted).
* C66: kinematicssavupart.py 246 clears use_min_max after minimum and maximum were announced (C66_lost_refuted).
* C67: kinematicssavupart.py 210-221 looks at the infos of all parts, its own too, so that for a scanned motor the link can be to its own VDS file (C67_own_refuted).
* C67: the default ':CS' of cs_mri_suffix and the ':' of line 261 make two colons; status_mri_suffix is never used (C67_default_suffix_refuted).
* C68: BeamSelectorPart.on_configure doubles steps_to_do but not completed_steps (beamselectorpart.py 260-262): after a pause or at a second breakpoint with c steps completed the PMAC is given points c..c+2n instead of 2c..2(c+n); for odd c the scan resumes at the wrong detector, and the last positions are never visited. The progress reported is also in doubled units.
* C69: write_profile (pmactrajectorypart.py 161-176) does not check the length of the positions; an append that leaves out an axis of the build is accepted and the driver takes the old positions again; total_points is set to 0 before the build is checked, so after a refused build execute_profile of the old profile times out.
* C70: RawMotorSinkPortsPart treats port index 0 as no CS only in _update_value (rawmotorsinkportspart.py 112-113), not in reconnect (84) and caput (155): with enums[0] named (as in the tests) and an axis letter, set_value raises ValueError, so the block goes to Fault. After putting "" the axis reads back "", which is taken as a bad value: cs has an INVALID alarm. CompoundMotorSinkPortsPart shows axis number 0 as Z (index -1).
* C71: CSPart.on_init checks only that the port ends with the digits of its number (cspart.py 46-48): CS1 accepts a block with port ...CS11 or ...CS21. CSPart.move leaves deferMoves True if a demand is not shown within a second (cspart.py 84-88).
* C72: field names that differ in an underscore before a digit (OUT_1, OUT1) give the same attribute name and the whole block is not made; a write field of subtype time raises (pandablockcontroller.py 186-234).
* C73: a value that the meta refuses ends handle_changes of the block (pandablockcontroller.py 99-140); the changes after it in the batch are lost, the device does not tell of them again. A poll sent after a set and handled before the set returns leaves the attribute with the old value (pandafieldpart.py 60-78).
* C75: after an exception in the poll loop _poll_spawned stays set, so reset makes the PandA Ready without a poll loop (pandamanagercontroller.py 96-107). If making the blocks fails half way, a reset makes it Ready without its blocks in the process.
* C76: controllers in a cycle of parts are not published, or start fails with a RecursionError; add_controllers that meets a name twice leaves the ones before it in the process, not started, not published and not addable [C76_cycle_refuted, C76_endless_refuted, C76_half_added_refuted].
* C77: stop goes through the old list while _clear_spawn_list makes a new one, so that it can return with functions running (process.py 171, 209-211) [C77_cleared_refuted]; after a timeout in stop the process can neither be stopped nor started [C77_stuck_refuted]; two threads waiting for one Spawned: one is never woken (concurrency.py 54-57) [C77_two_waiters_refuted].
* C78: in a round of validate only one part's tweak of the detectors table stays, so ten detectors whose rows lack an exposure can not be validated (runnablecontroller.py 362, 401-408) [C78_ten_refuted]; with several frames in a step and a duration of 0 the generator of the scan becomes that of the detector, with the axis of its frames (detectorchildpart.py 222-231) [C78_generator_refuted].
* C79: translate_filepath uses str.replace on the whole path, so a prefix occurring again is replaced again: with drive X and prefix /dls, /dls/i18/dls/2021/a.h5 becomes X:\i18X:\2021\a.h5 (C79_again_refuted). startswith does not ask for a directory boundary: /dls_sw/prod/a.h5 becomes X:_sw\prod\a.h5 (C79_sibling_refuted). make_xml_filename maps DET:STAT and DET_STAT to the same file (C79_xml_shared_refuted).
* C80: for a generator with duration 0 PandAPulseTriggerPart asks for 16 ns; if the detector has no exposure attribute the width it then writes is 16 ns/frames - 1 us, which is negative (C80_width_refuted). The export check only compares the block name, so detWidth exported from PULSE2.delay is accepted and the exposure is written to the delay (C80_crossed_refuted).
* C81: on_post_run_armed sets the detector up again without the exposure, so with breakpoints or soft triggers the second and later runs have the acquire period of the longest exposure instead of the one configured (C81_later, C81_later_refuted), and an Andor even changes its exposure to the longest (C81_andor_later_refuted). AndorDriverPart.on_validate checks exposure + andorReadoutTime, but setup_detector also takes off 1 ms and 0.4 %: the exposure configured is always less than the one validated for the duration on_validate asks for (C81_validated_less). A frame shorter than the readout is not refused by an Andor; its period is longer than the frame (C81_short_refuted). Reframe validates durations of one sample that setup_detector refuses (C81_reframe_refuted). XMAP is armed once for the images of all runs but pixelsPerRun is that of one run (C81_xmap_refuted). The TetrAMM target is uint32, so the documented -1 can not be stored (C81_tetramm: something is always put).
* C82: the place of a hidden block is lost (set to 0, 0) when the device reports a layout, because only visible blocks are kept in its layout (pandamanagercontroller.py 318-331; C82_hidden_refuted).
* C83: a root that ends in a digit can clash with the alias made for another: with A and A1 of one block each, the label of A is given to A1 (pandamanagercontroller.py 184-187; C83_digit_refuted). A change for a block that is not known ends the poll loop with a KeyError (C83_unknown).
* C85_fewer_refuted: a change that replaces a dict by one with fewer items (the elements of a map, say) leaves the old items in the pvAccess copy: p4p sets the items that are given and the PV stays open (pvaconvert.py 146-150).
* C86_unpacked_refuted: a method whose return is not a dict gives `{'return': x}` when called through a pvAccess proxy, and `x` when called locally or through a websocket (pvaservercomms.py 80-86, pvaclientcomms.py 165-166).
* C87_elements_refuted: an update inside the elements of a table (a dict of Models) makes apply_change of pvaclientcomms.py 122 raise (a dict has no apply_change), so that the rest of that update is lost for good.
* C87_exports_refuted: every reconnection puts a None in the queue of sync_proxy, only a refused put to exports takes one out (pvaclientcomms.py 77, 145). So after one reconnection a put to exports that the server refuses returns as if it was taken.
* C89_one_refuted: ca/util.py 167 says no more than one update per min_delta; after an update that waited, the next is taken at once, so that two per min_delta happen for ever (C89_rate: never more than that, apart from four).
* C90_alarm_refuted, C90_disconnected_refuted: the severity of a CATable only goes up (max, ca/util.py 163) and ok only goes True (or, 162): a waveform table stays in alarm for ever, and is never shown as disconnected; the ca_nothing of a lost PV has no severity, which raises in the callback.
* C91_own_default_refuted: when two parts have different defaults for an argument both get that of the part that comes last: with a KinematicsSavuPart ("%s.nxs") after a HDFWriterPart ("%s.h5") the HDF writer writes to .nxs files.
* C91_all_reached_refuted: an argument of a hooked function with the default None that is not given is not left to the default, core/hook.py 138 raises: a PandAPulseTriggerPart in a block without detectors fails in the hook, not with its own message.
* C93: seven races and omissions around pause and abort in runnablecontroller.py. (1) the shutter of an AttributePreRunPart stays open between runs (no PostRunArmedHook, attributeprerunpart.py:48-51) and after a Fault and reset. (2) abort() before part_contexts are replaced (463-477) stops nothing; configure runs all its hooks, then faults the block because Aborting -> Armed is not allowed. (3) pause() reads the state (685) outside the lock; if run() starts in between, the pause ends in Armed, and run() waits for ever in resume_queue.get(). (4) a stop between two hooks is ignored by the next hook (hooks.py:30-34); if that takes longer than DEFAULT_TIMEOUT the block is Paused with it still running, and PreRun opens the shutter. (5) next_state of run() is computed once (529-532): a seek to an earlier run during the last makes it end in Finished before the scan is, with the shutter open. (6) an abort during the wait of a pause replaces abort_queue: the pause waits for its whole timeout, then runs its hooks on the aborted block and faults it.
* C94: config_subscriptions is never cleared (childpart.py 277-295, although the comment says that it is), so a config-tagged field that leaves the child and comes back (a proxy after its server restarts) is never watched again and, if it is a port, is no longer reported (C94_back_refuted).
* C94: a load that fails in a LoadHook leaves the design's exports in the exports table (managercontroller.py 538) while the block keeps its old fields, since update_block_endpoints is only called by _mark_clean (564); reset leaves it so (C94_failed_load_refuted).
* C93: pause() decides where it will end (runnablecontroller.py 681-692) before it takes the lock (625), so a run that ends in between leaves the block Paused with no run; resume() then makes it Running with nothing running, and abort() waits DEFAULT_TIMEOUT for nobody (C93_alone_refuted). C93_answered proves that otherwise every pause or abort that waits is answered after at most 17 steps of the thread it stopped.
* C95: DirParsePart keeps the last good DLSVER; when the STATUS of procServ is updated after the IOC has gone, its health goes back to OK (C95_status_refuted). has_procserv is never cleared (C95_procserv_refuted). A RELEASE file with nothing but comments leaves the table of the old directory (C95_directory_refuted). Two spaces in ioc_list make a block ":STATUS" (C95_iocs_refuted).
* C96: PandASeqTriggerPart has no PostRunReady hook, so the gate of the sequencers stays open in Finished (C96_finished_refuted); panda_mri is only known after a configure, so after a restart of the process neither reset nor the first configure shuts it and the tables are written into running sequencers (C96_restart_refuted).
* C98: the two moves that MotionChildPart asks for one point (to its start at once, to its end in time) are made by threads of their own; if the point is late and the first ends last, the axis stays at the start of the point (C98_order_refuted). An axis that is moved while the scan is paused is not taken back to the start of the next point, since the mover remembers where it sent it (C98_paused_refuted). A point at which no axis moves is over at once, whatever its duration (C98_still). A clock that is set back makes a counter leave the way to its demand (C98_move_refuted).
* C99: `view[name]` of a missing name returns a KeyError object (views.py 37); extra positional arguments are silently dropped (109); `put_attribute_values` puts the items before an unknown name, then raises KeyError, the assertion of 177 being unreachable; a field called typeid, path, notifier or mri passes the camelCase check and breaks the block or its views; a refused second use of a model makes the block impossible to view.
* C100_open_refuted: `_write_additional_hdf` (hdfwriterpart.py 252-270) opens the file and gives it to the part only at its end; when it raises in between (an axis with no units: KeyError) the file stays open, as on_reset only closes the one the part holds. C100_xml_refuted: on_reset puts xmlLayout only when it has just removed the file, so a reset that fails between leaves the old name for good. C100_names_refuted: util.py 112 maps : to _, so BL:DET_1 and BL_DET:1 share their XML files.
* C101_resume_refuted: on_seek puts arrayCounter to zero "so we can check for the first frame" (hdfwriterpart.py 625-628), but first_array_future is only made in on_configure (588-591), so nothing checks: the stall clock of a resumed run starts at once.
* A control character in the name, source or description of an extra attribute is taken by set_extra_attributes and written as it is: the driver gets a file that no XML reader takes (C102_any_text_refuted).
* C104: set_fields formats a value into the message without looking for line ends: a label or string value with a newline in it is read by the PandA as a second command, and from then on answers are one out of step with requests (C104_any_value_refuted).
* C106: HDFWriterPart.on_seek takes numCapturedReadback as it is; frames that are on their way to the plugin when the run is paused are then counted for the next run, which is over for the writer with as many frames missing (hdfwriterpart.py 618-635; C106_pause_refuted).  Before on_run of the writer subscribes, completedSteps follows the detector alone and can be past what is in the file (runnablecontroller.py 591-600; C106_early_refuted).
* C107: on_run of the PMAC part returns when the PMAC stopped with pointsScanned equal to the number of points written so far. If the PMAC comes to the end of its points before update_step has sent the next block, the run ends there without an error; EndRun then sets completedSteps to the end of the run, while the next block is sent and never executed (pmacchildpart.py 422-430, 440-479; pmactrajectorypart.py 173-191; C107_dry_refuted).
* C108: cs_port_with_motors_in reads cs of every block of the layout in order; a block without it (a CS or trajectory block) before the first motor in a CS raises AttributeError, so that a scan that only wants triggers can not be configured; so it is with a layout in which no motor is in a CS, where the message about it is not reached (util.py 27-39; C108_triggers_only_refuted).
* OdinWriterPart.on_seek and XspressWriterPart.on_seek put to child.arrayCounter, which odin_writer_block.yaml and xspress3_writer_block.yaml do not have: AttributeError, so such a scan faults when it is paused and resumed or seeks (C109_seek_refuted, C109_seek_fails). The unit tests use a mock child that takes any name.
* CSPart declares no no_save attributes, but its moves put csMoveTime and deferMoves, config attributes of cs_block.yaml: after a move the saved design of the PMAC is modified (C109_cs_refuted; C109_moves_change_two: nothing else changes).
* CSPart.report_status reads child.forward and child.inverse; cs_block.yaml calls them forwardKinematic and inverseKinematic. Not modelled: the PMAC manager does not run that hook.
* C110: with a sparse profile the completed step stored for a point is its index in its batch, not in the scan (pmacchildpart.py add_sparse_point is called with the batch index). It is harmless at present: steps are only reported while every point gives a trigger.
* C111: all_points_same_velocities compares each point with the next only (np.isclose, relative 1e-5). Over many points the velocity can drift without a point being kept: 2000 points of one second, each 0.00001 faster than the one before, become one straight line that is 5 units off half way (C111_bent_refuted: any distance for enough points).
* RestfulHandler.handle_response gives tornado's set_status the Error's message, which is an Exception object and not a string (response.py 9-10, 41-43, request.py 53-57): whether the client sees the message depends on tornado turning it into one; only that the status is 500 is claimed in C112.
