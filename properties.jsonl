{"id": "C01", "title": "Block state only moves along the documented transition graph", "statement": "Whatever sequence of lifecycle calls (init, reset, disable, halt, save, load, configure, run, pause, resume, abort, seek) reaches a stateful block, with any of the underlying work succeeding or failing at any point, the sequence of values published on `state` is a path in the published state graph of that kind of block; a call that would need a move outside the graph raises and publishes no other state than possibly Fault.", "quantifier": "all histories of lifecycle calls and all success/failure outcomes of the work they do, for the Stateful, Manager and Runnable state graphs", "why_tests_cant": "the number of histories is unbounded; a test visits a handful of paths and never the interleaving of a failure with each state", "anchors": ["malcolm/core/stateset.py: StateSet.transition_allowed, set_allowed", "malcolm/modules/builtin/util.py: StatefulStates, ManagerStates", "malcolm/modules/scanning/util.py: RunnableStates", "malcolm/modules/builtin/controllers/statefulcontroller.py: transition, try_stateful_function, go_to_error_state"]}
{"id": "C02", "title": "Disabled is left only by resetting, and a failure always lands in Fault", "statement": "A disabled block publishes no state other than Resetting next, whatever is called on it; and when the work of any lifecycle call fails while the block is in any state other than Disabled, the block ends in Fault with a major alarm carrying the error text, from which reset or disable is always possible.", "quantifier": "all states and all histories of calls and failures", "why_tests_cant": "needs every (state, call, outcome) combination after every history, not one example of each", "anchors": ["malcolm/modules/builtin/util.py: StatefulStates.create_error_disable_transitions", "malcolm/modules/builtin/controllers/statefulcontroller.py: go_to_error_state, transition, try_stateful_function"]}
{"id": "C03", "title": "Writeable flags always agree with the state shown", "statement": "After any history, a method or attribute that declared the states in which it may be used is writeable exactly when the block's current state is one of them; a settable field that declared nothing is writeable exactly when the block is neither Disabling nor Disabled; and health/alarm shows Disabled or the fault message exactly in those states.", "quantifier": "all declarations of fields, all histories of transitions", "why_tests_cant": "it is an invariant over all histories and all field registrations", "anchors": ["malcolm/modules/builtin/controllers/statefulcontroller.py: set_writeable_in, add_block_field, transition", "malcolm/modules/scanning/controllers/runnablecontroller.py: __init__"]}
{"id": "C04", "title": "A refused request changes nothing", "statement": "A Put or Post to a missing field, to a field of the wrong kind, to a field that is not writeable, or with a value its meta rejects never runs the field's function and leaves every value of the block as it was; the caller gets exactly one Error.", "quantifier": "all blocks, all requests, all values", "why_tests_cant": "tests try single bad requests; the claim is for every path, value and block", "anchors": ["malcolm/core/controller.py: _handle_request, _handle_put, _handle_post, check_field_writeable"]}
{"id": "C05", "title": "Exactly one answer per request, carrying its id, to its own callback", "statement": "Every Get, Put, Post and Unsubscribe handled by a block leads to exactly one Return or Error with the request's id, given to that request's callback; a Subscribe leads to exactly one Update or Delta straight away and no Return until it is unsubscribed.", "quantifier": "all histories of requests against a block", "why_tests_cant": "a claim about every request in every history including failing handlers", "anchors": ["malcolm/core/controller.py: _handle_request, _handle_get, _handle_put, _handle_post", "malcolm/core/notifier.py: handle_subscribe, handle_unsubscribe", "malcolm/core/request.py", "malcolm/core/response.py"]}
{"id": "C06", "title": "A Delta subscriber that replays what it is sent holds the current value", "statement": "If a client subscribes with delta to any path and applies every Delta it receives in order (set, replace or delete at the given sub-path), then after every closed set of changes its copy equals the value of the block at that path. This holds for paths that do not go through a dict and as long as tables are replaced as a whole; column-wise table updates break it (see findings).", "quantifier": "all tree-shaped block contents, all subscription paths, all sequences of grouped changes and deletions", "why_tests_cant": "the space of trees, paths and change groupings is unbounded", "anchors": ["malcolm/core/notifier.py: NotifierNode.notify_changes, _add_child_change, _update_data, handle_subscribe", "malcolm/core/models.py: Model.set_endpoint_data, apply_change"]}
{"id": "C07", "title": "An Update subscriber gets the current value after every change at, above or below its path", "statement": "A client subscribed without delta to a path gets, when a group of changes closes, exactly one Update if any change in the group touched its path, a parent of it or a child of it, and none otherwise (a subscriber of the whole block also gets one for an empty group); the value in it is the value of the block at that path at that moment, for paths that do not go through a dict and tables replaced as a whole.", "quantifier": "all contents, paths and grouped changes applied through set/delete of endpoints", "why_tests_cant": "unbounded trees and change groups", "anchors": ["malcolm/core/notifier.py: NotifierNode.notify_changes, _update_data"]}
{"id": "C08", "title": "Changes grouped together are published together", "statement": "While any group of changes is open on a block no subscriber is called; when the outermost group closes each subscriber is called at most once with the effect of all changes of the group, in subscription-tree order; nothing queued is lost or sent twice, however groups nest.", "quantifier": "all nestings of groups and all change sequences", "why_tests_cant": "nesting depth and sequences are unbounded", "anchors": ["malcolm/core/notifier.py: Notifier.__enter__, __exit__, add_squashed_change, add_squashed_delete"]}
{"id": "C09", "title": "Unsubscribing ends a subscription and leaves no residue", "statement": "After an Unsubscribe with the id and callback of a live subscription the subscriber gets one Return and then nothing more ever; the other subscriptions keep receiving exactly what they would have; unsubscribing something unknown is an Error and changes nothing; when every subscription is gone the bookkeeping is empty again.", "quantifier": "all histories of subscribe/unsubscribe/change with distinct (callback,id) pairs", "why_tests_cant": "histories are unbounded; leaks only show after particular orders", "anchors": ["malcolm/core/notifier.py: Notifier.handle_subscribe, handle_unsubscribe, NotifierNode.handle_unsubscribe"]}
{"id": "C10", "title": "A future is resolved once, by the response to its own request", "statement": "Through one context every request gets an id never used before in that context; a Return or Error resolves the future of the request with that id and no other, with what it says, and each future is resolved at most once. A wait returns only when everything it was asked for is resolved, raises the error of a response only if it is that of one of its futures, and (for distinct futures, when callbacks do not wait themselves) goes on only while one of them is unresolved and returns only if all have results.", "quantifier": "all interleavings of requests, responses and waits on one context", "why_tests_cant": "schedules of responses are unbounded", "anchors": ["malcolm/core/context.py: _get_next_id, _dispatch_request, _service_futures, wait_all_futures", "malcolm/core/future.py: Future"]}
{"id": "C11", "title": "Stop aborts waits issued before it and only those not told to ignore it", "statement": "A stop placed on a context makes the wait that meets it raise AbortedError; after 'ignore stops before now' no stop placed earlier aborts any wait, and every stop placed later does.", "quantifier": "all sequences of stop, ignore and waits with any responses in between", "why_tests_cant": "the number of stops outstanding when a wait starts is unbounded and depends on the schedule", "anchors": ["malcolm/core/context.py: stop, ignore_stops_before_now, _service_futures, STOP"]}
{"id": "C12", "title": "Hooks of all parts are waited for, and the first error stops the rest", "statement": "When a hook is run over the parts of a controller the caller gets either the returned infos of every part, keyed by part name, or the first error in completion order; on an error that is not an abort every part's hook of this run is told to stop exactly once before the caller gets it, so every part still running is; on an abort none is. In both cases every hook that was started is waited for.", "quantifier": "all numbers of parts and all completion orders and outcomes", "why_tests_cant": "the completion order is a schedule", "anchors": ["malcolm/core/hook.py: start_hooks, wait_hooks, Hook._run", "malcolm/core/controller.py: start_hooks, wait_hooks"]}
{"id": "C13", "title": "Runs cover the scan exactly", "statement": "With breakpoints given, the sizes of consecutive runs of a scan are positive, each outer repetition sums to the inner scan size, all of them sum to the size of the scan, and the published stopping points are the running totals; without breakpoints every run is the size of the dimensions being moved.", "quantifier": "all scan dimension lists, axes to move and breakpoint lists", "why_tests_cant": "unbounded dimension lists and breakpoints", "anchors": ["malcolm/modules/scanning/controllers/runnablecontroller.py: get_steps_per_run, _get_outer_steps"]}
{"id": "C14", "title": "completedSteps never passes configuredSteps at rest, nor configuredSteps the scan size", "statement": "In every reachable rest state of a configured scan, 0 <= completedSteps <= configuredSteps <= totalSteps, configuredSteps is one of the stopping points, and after a seek to step n the parts are asked to restart at exactly n and to do exactly the steps up to the next stopping point after n.", "quantifier": "all scans, all histories of run, pause, seek, resume", "why_tests_cant": "invariant over unbounded histories", "anchors": ["malcolm/modules/scanning/controllers/runnablecontroller.py: do_configure, do_run, pause, do_pause, get_breakpoint_index"]}
{"id": "C15", "title": "A scan run to its end does every step once, in order", "statement": "Repeatedly calling run on an armed scan asks the parts to do consecutive step ranges [0,a),[a,b),\u2026 whose union is [0,totalSteps) with no gap or overlap, the block being Armed between runs and Finished only after the last; pausing and resuming inside the current run does not change which steps follow.", "quantifier": "all scans and all numbers of runs and pauses inside the current run", "why_tests_cant": "the ranges depend on every earlier run and pause", "anchors": ["malcolm/modules/scanning/controllers/runnablecontroller.py: run, do_run, do_configure, do_pause"]}
{"id": "C16", "title": "Reported progress is the slowest part and never goes backwards within a run", "statement": "Whatever order parts report progress in, completedSteps does not decrease between seeks, and is never raised above the smallest of the parts' latest reports.", "quantifier": "all interleavings of part progress reports", "why_tests_cant": "interleavings are schedules", "anchors": ["malcolm/modules/scanning/controllers/runnablecontroller.py: update_completed_steps"]}
{"id": "C17", "title": "Validated parameters need no further change", "statement": "If validate returns parameters then every part, asked again with exactly those parameters, asks for no change; validation always ends after at most ten rounds with either such parameters or an error.", "quantifier": "all part validators (as functions of parameters) and all initial parameters", "why_tests_cant": "the parts' validators are arbitrary functions", "anchors": ["malcolm/modules/scanning/controllers/runnablecontroller.py: validate", "malcolm/modules/scanning/util.py: resolve_generator_tweaks"]}
{"id": "C18", "title": "Method arguments are accepted exactly when they fit the declared map", "statement": "Validating a set of named arguments succeeds exactly when every name is declared, every required name is present and every value is accepted by its own meta; the result has the declared order, only supplied names (or all of them with defaults when asked to fill), and validating the result again changes nothing.", "quantifier": "all declarations and all argument maps", "why_tests_cant": "unbounded maps", "anchors": ["malcolm/core/models.py: MapMeta.validate, set_required, set_elements"]}
{"id": "C19", "title": "Choice, boolean and string validation is idempotent and lands in the declared set", "statement": "Whatever is put to a choice attribute the stored value is one of its choices or the put fails; validation of an already valid value returns it unchanged; None gives the first choice / False / empty string.", "quantifier": "all choice lists and all put values", "why_tests_cant": "all inputs", "anchors": ["malcolm/core/models.py: ChoiceMeta.set_choices, ChoiceMeta.validate, BooleanMeta.validate, StringMeta.validate"]}
{"id": "C20", "title": "Tables are rectangular and survive rows/columns conversion", "statement": "Any table value accepted by a table attribute has exactly the declared columns, all the same length; turning a table into rows and back gives an equal table; a single row fetched by index equals that row.", "quantifier": "all tables", "why_tests_cant": "all column/row counts and contents", "anchors": ["malcolm/core/table.py: Table", "malcolm/core/models.py: TableMeta.validate"]}
{"id": "C21", "title": "Port tags round trip", "statement": "For every port kind and every connected value without colon or newline, the tag made for a source or sink port parses back to the same direction, kind and value; removing the port tags of a list leaves every other tag, in order, and removes all port tags.", "quantifier": "all strings and tag lists", "why_tests_cant": "all strings", "anchors": ["malcolm/core/tags.py: Port, port_tag_details, with_source_port_tag, without_tags"]}
{"id": "C22", "title": "A saved design loaded back restores layout, exports and child settings", "statement": "Saving the design of a manager block and loading that file again, with no other change in between, publishes the same layout rows, the same exports (distinct sources) and puts to each visible child exactly the values that were saved, so that the block is unmodified afterwards.", "quantifier": "all layouts, exports and child settings", "why_tests_cant": "all designs", "anchors": ["malcolm/modules/builtin/controllers/managercontroller.py: do_save, do_load, set_layout, set_exports, _mark_clean", "malcolm/modules/builtin/parts/childpart.py: on_save, on_load"]}
{"id": "C23", "title": "The modified light is lit exactly when something differs from the saved design", "statement": "After a save or load, a child part reports itself modified exactly when the current value of some saved configuration attribute differs from the value saved; going back to the saved value clears it.", "quantifier": "all sequences of child attribute updates after a save", "why_tests_cant": "histories of updates", "anchors": ["malcolm/modules/builtin/parts/childpart.py: update_part_modified, send_modified_info_if_not_equal, on_save", "malcolm/modules/builtin/controllers/managercontroller.py: update_modified"]}
{"id": "C24", "title": "Writing part of the layout touches only the named parts", "statement": "Setting the layout with rows for some of the parts moves and shows/hides exactly those, keeps every other part's row unchanged, keeps one row per part in part order, and ignores rows naming no part.", "quantifier": "all current layouts and all written tables", "why_tests_cant": "all tables", "anchors": ["malcolm/modules/builtin/controllers/managercontroller.py: set_layout", "malcolm/modules/builtin/parts/childpart.py: on_layout"]}
{"id": "C25", "title": "Block and field names stay unique", "statement": "A process never holds two controllers with one mri, a controller never two parts with one name, nor two fields with one name; an attempt to add a second one is refused and the first stays reachable.", "quantifier": "all sequences of additions", "why_tests_cant": "histories", "anchors": ["malcolm/core/process.py: add_controllers, get_controller", "malcolm/core/controller.py: add_part", "malcolm/core/part.py: FieldRegistry._add_field"]}
{"id": "C26", "title": "Sequencer tables produce exactly the requested number of pulses", "statement": "Adding a count of equal pulses to a sequencer row list yields rows whose repeats sum to that count, each row repeating between 1 and 4096 times, for every count that is not a positive multiple of 4096.", "quantifier": "all counts and row parameters", "why_tests_cant": "unbounded counts", "anchors": ["malcolm/modules/ADPandABlocks/doublebuffer.py: SequencerRows.add_seq_entry"]}
{"id": "C27", "title": "Splitting a row list over two hardware tables loses nothing", "statement": "However the row source is batched, the tables written to the two hardware sequencers, in the order written, replay every requested row exactly as often and in the same order as requested, no table exceeds 4096 rows, and total time is unchanged except for the switching delay taken from each table's last row.", "quantifier": "all row sources and batchings", "why_tests_cant": "unbounded lists", "anchors": ["malcolm/modules/ADPandABlocks/doublebuffer.py: SequencerRows.split, DoubleBuffer._get_tables, configure, _seq_active_handler"]}
{"id": "C28", "title": "One live trigger per scan point", "statement": "For a scan done with time-based triggers, the rows produced for points [a,b) pulse exactly b-a times, each for the point's own duration, in order.", "quantifier": "all duration lists and point ranges, all batch boundaries", "why_tests_cant": "unbounded lists of points", "anchors": ["malcolm/modules/ADPandABlocks/parts/pandaseqtriggerpart.py: _create_immediate_rows, _get_row_indices, get_rows"]}
{"id": "C29", "title": "Motion profile arrays stay aligned and never lose a step", "statement": "However points are added to a motion profile and written out in blocks, time, velocity mode, user program and every axis array have equal length, the concatenation of the written blocks is the profile in order, the step lookup never decreases, no interval exceeds the maximum move time and splitting an interval keeps its total time.", "quantifier": "all sequences of profile points", "why_tests_cant": "unbounded profiles", "anchors": ["malcolm/modules/pmac/parts/pmacchildpart.py: add_profile_point, add_generator_point_pair, write_profile_points"]}
{"id": "C30", "title": "Rounding of motion times never drifts by more than one tick per block", "statement": "When interval times are converted to integer microseconds the sum of the written ticks in a block differs from the exact sum by less than one tick, however many intervals there are, and every individual interval by at most one tick.", "quantifier": "all lists of intervals", "why_tests_cant": "drift appears only in long lists", "anchors": ["malcolm/modules/pmac/parts/pmacchildpart.py: write_profile_points"]}
{"id": "C31", "title": "Axis mapping is complete and one to one", "statement": "If mapping scan axes to a coordinate system succeeds then every requested axis is mapped, all mapped axes are in one coordinate system, and no two use the same controller axis; otherwise it raises.", "quantifier": "all layouts, port tables and axes", "why_tests_cant": "all tables", "anchors": ["malcolm/modules/pmac/util.py: cs_axis_mapping, cs_port_with_motors_in"]}
{"id": "C32", "title": "PandA table values survive encode and decode", "statement": "Writing a table of unsigned, boolean or enumerated fields (each within its bit width, fields not overlapping and inside one 32-bit word) to the hardware list of words and reading it back gives the same table.", "quantifier": "all field layouts and all table contents", "why_tests_cant": "all layouts and values", "anchors": ["malcolm/modules/pandablocks/parts/pandatablepart.py: list_from_table, table_from_list, get_column_index, get_nbits_mask"]}
{"id": "C33", "title": "PandA replies reach the request they answer, however the bytes arrive", "statement": "For any way the server's byte stream is cut into packets, the client produces the same sequence of responses, and the n-th response is given to the n-th request sent.", "quantifier": "all streams and all packetisations", "why_tests_cant": "packet boundaries are a schedule", "anchors": ["malcolm/modules/pandablocks/pandablocksclient.py: _get_lines, _respond, _recv_loop, _send_loop"]}
{"id": "C34", "title": "Bit outputs end at the last hardware value and every report is visible", "statement": "After any history of polled bit changes, one further poll with no change leaves every shown bit equal to the last value hardware reported for it; a report equal to the shown value still makes the shown value toggle.", "quantifier": "all poll histories with at most one report per bit per poll", "why_tests_cant": "histories", "anchors": ["malcolm/modules/pandablocks/controllers/pandamanagercontroller.py: _handle_change, handle_changes"]}
{"id": "C35", "title": "Read-only web clients can not write", "statement": "A websocket client outside the configured subnet never causes a Put or Post to be dispatched to any block, whatever it sends; each message it sends that cannot be dispatched is answered with an Error carrying its id.", "quantifier": "all client message sequences", "why_tests_cant": "all inputs", "anchors": ["malcolm/modules/web/parts/websocketserverpart.py: on_message, IOLoopHelper, MalcWebSocketHandler"]}
{"id": "C36", "title": "A lost server connection fails every outstanding remote call", "statement": "In the websocket client every request sent gets a fresh id; a response resolves only the request with its id; when the connection drops every request still waiting gets one Error, and none is left pending.", "quantifier": "all histories of sends, responses and disconnections", "why_tests_cant": "histories", "anchors": ["malcolm/modules/web/controllers/websocketclientcomms.py: on_message, _report_fault, _send_request"]}
{"id": "C37", "title": "Detector frame ids are never reused and always map to the right scan step", "statement": "Over any history of configure, run, seek and re-arm, the ids a detector is armed for do not overlap ids it was armed for earlier in the same scan, and id + offset is exactly the scan step the frame belongs to; the position labeller and the detector driver agree on the id of every step.", "quantifier": "all histories of configure, run to end, seek", "why_tests_cant": "histories", "anchors": ["malcolm/modules/ADCore/parts/detectordriverpart.py: setup_detector, update_completed_steps", "malcolm/modules/ADCore/parts/positionlabellerpart.py: setup_plugin, on_post_run_armed, on_seek, _make_xml"]}
{"id": "C38", "title": "Exposure always fits in the frame", "statement": "For every duration, readout time and frequency accuracy, the exposure chosen is positive-or-minimum, never exceeds what the frame leaves after readout and crystal inaccuracy, and a requested exposure that fits is used unchanged.", "quantifier": "all durations, readout times, accuracies and requested exposures", "why_tests_cant": "all real inputs", "anchors": ["malcolm/modules/scanning/infos.py: ExposureDeadtimeInfo.calculate_exposure, calculate_minimum_duration, calculate_maximum_exposure", "malcolm/modules/scanning/parts/exposuredeadtimepart.py: on_validate"]}
{"id": "C39", "title": "Health shows the worst fault present and OK only when there is none", "statement": "After any history of health reports from the parts, health is OK exactly when every part's latest report is OK, and otherwise shows the message of a fault of highest severity among the parts' latest reports.", "quantifier": "all histories of reports", "why_tests_cant": "histories", "anchors": ["malcolm/modules/builtin/controllers/basiccontroller.py: update_health"]}
{"id": "C40", "title": "The scan runner accounts for every scan", "statement": "After a completed run of a loaded scan file, scansCompleted = scanSuccesses + scanFailures = scansConfigured, whatever the outcome of each scan.", "quantifier": "all scan files and outcomes", "why_tests_cant": "all outcomes", "anchors": ["malcolm/modules/scanning/parts/scanrunnerpart.py: run, run_scan_set, run_scan, update_scans_configured"]}
{"id": "C41", "title": "One blind pulse per turnaround", "statement": "With position compare, for every range of points that fits in one batch, the rows contain exactly one dead pulse per pair of consecutive points that the motion does not join, with the blind time computed for that pair, and one at the end.", "quantifier": "all point lists, joins, blind times and ranges of at most one batch", "why_tests_cant": "unbounded point lists; the fault beyond one batch needs rows crossing a 5000 point boundary", "anchors": ["malcolm/modules/ADPandABlocks/parts/pandaseqtriggerpart.py: get_rows, _create_triggered_rows"]}
{"id": "C42", "title": "An every-point motion scan sends every point exactly once and in order", "statement": "However the controller reports progress, the trajectory sent in blocks plus what is still kept is the run up, then every scan point once and in order with turnarounds between rows, then one tail off; the live, mid and dead signals are exactly those of the points; reported steps never go back; every report loads more until all is sent; and no error occurs if the motors can do the motion.", "quantifier": "all generators, joins, turnarounds, block sizes, batch sizes and report sequences", "why_tests_cant": "needs all interleavings of loading and progress, across batch and block boundaries", "anchors": ["malcolm/modules/pmac/parts/pmacchildpart.py: on_configure, update_step, calculate_generator_profile, create_generator_profile_every_point, add_tail_off, insert_gap"]}
{"id": "C43", "title": "Waiting for a value ends at the first value that decides", "statement": "A wait for an attribute value does nothing for the values up to the first one that is good or bad, ends the subscription at that value, raises exactly if it is bad, and takes no notice of values delivered later.", "quantifier": "all conditions and all sequences of delivered values", "why_tests_cant": "values that are delivered between the match and the end of the subscription depend on the schedule and are unbounded", "anchors": ["malcolm/core/context.py: When, when_matches_async, wait_match"]}
{"id": "C44", "title": "A subscription's callback gets every update until it is ended, and none after", "statement": "Through a context the callback of a subscription is called for each update taken off the queue for that subscription, with its value and in order, as long as it has not been unsubscribed; it is never called after unsubscribe has returned, even for updates already on the queue, and a subscription is ended at most once.", "quantifier": "all interleavings of requests, updates, waits and callbacks on one context", "why_tests_cant": "updates already queued when unsubscribe is called depend on the schedule", "anchors": ["malcolm/core/context.py: subscribe, unsubscribe, _service_futures"]}
{"id": "C45", "title": "A method's logs show the last call that ended", "statement": "When a method's function ends, its took log holds the parameters of that call (filled up with defaults) and its returned log what it returned, with an alarm exactly when it raised; the caller gets that return or that error.", "quantifier": "all methods, all interleavings of calls of one or several methods", "why_tests_cant": "interleavings of calls", "anchors": ["malcolm/core/controller.py: _handle_post, update_method_logs"]}
{"id": "C46", "title": "Hiding a part cuts its connections and nothing else", "statement": "When a layout row hides a part that is shown, every writeable sink port of that part, and every writeable sink port of another part that is connected to it, is put to its disconnected value; no other attribute of any child changes.", "quantifier": "all sets of parts and ports, all histories of the manager before", "why_tests_cant": "depends on what each part remembers of the others over the whole history", "anchors": ["malcolm/modules/builtin/parts/childpart.py: on_layout, sever_sink_ports, calculate_part_visibility"]}
{"id": "C47", "title": "A dead websocket is unsubscribed once", "statement": "When a websocket has died, the first update of each of its subscriptions that can not be written sends one Unsubscribe, to the block that the subscription was made on; updates still on their way after that and other responses send none.", "quantifier": "all histories of messages and all sequences of responses to the dead socket", "why_tests_cant": "histories", "anchors": ["malcolm/modules/web/parts/websocketserverpart.py: _on_response"]}
{"id": "C48", "title": "A detector child stays in step with the block that scans it", "statement": "Over any history of runs, ends of runs, progress reports, pauses and seeks, a child detector taking one frame per step is set up for exactly the steps its parent is set up for, never refuses what the parent asks of it, and is in the run the parent is in (or has finished it). With several frames per step the same holds for exactly the frames of those steps, for scans without seeks and breakpoints.", "quantifier": "all scans, all histories, all numbers of frames", "why_tests_cant": "histories of two state machines; a unit test mocks the child", "anchors": ["malcolm/modules/scanning/parts/detectorchildpart.py: _configure_args, on_run, on_seek, update_completed_steps", "malcolm/modules/scanning/controllers/runnablecontroller.py: do_run, do_pause"]}
{"id": "C49", "title": "PandA bus tables show what the device last said", "statement": "Each row of the bits and positions tables of a PandA shows, column by column, the last value the device reported or the user asked for; a position's value is its counts times scale plus offset as shown once the device has been heard since it was last rescaled, whatever the order of changes in a poll; a request touches only the rows it names, what it sends to the device is what the table then shows, and one which fails leaves the tables alone.", "quantifier": "all capture words and position names, all sequences of polls (any changes in any order) and of puts to the two tables", "why_tests_cant": "The tables are kept as columns with index lookups and per-poll dictionaries of changed columns; the existing tests send a few fixed polls and cannot cover interleavings of polls and puts.", "anchors": ["malcolm/modules/pandablocks/parts/pandabussespart.py:17-38", "malcolm/modules/pandablocks/parts/pandabussespart.py:88-142", "malcolm/modules/pandablocks/parts/pandabussespart.py:165-273"]}
{"id": "C50", "title": "Every object in a published block knows its notifier and its path, and changes are announced exactly", "statement": "At any time in any run of disciplined, successful operations on Models (creating, publishing, set_endpoint_data, block field set and remove_endpoint), an object is at path p of a published block iff its notifier is that block's and its path is mri::p; it is at one place only; and the changes an operation gives to the notifiers are exactly the differences it makes to the published blocks (each announced path now leads to the announced data, and nothing else is different).", "quantifier": "All runs of operations, all objects, all paths, all published blocks", "why_tests_cant": "Tests look at single sets on small fixed models; the property is an invariant of the mutable object graph over all sequences of operations, including moving subtrees between places", "anchors": ["malcolm/core/models.py:45-129", "malcolm/core/models.py:1278-1320", "malcolm/core/controller.py:45-54"]}
{"id": "C51", "title": "Every dataset announced is in the HDF file at its path", "statement": "For every scan and every set of infos reported by the parts, each DatasetProducedInfo that the HDF writer announces is in the layout it gives to the plugin at its path and has the source it should have (the arrays, the NDAttribute reported, or the demand positions of the axis) with its unique id also there (or is in the additional file at its path); everything in the file is announced; no path is there twice if names are distinct; and each group follows NeXus: signal, axes (one for each dimension) and indices agree with the dimensions of the scan.", "quantifier": "all generators, all reported infos, all names and files", "why_tests_cant": "The announced infos and the layout XML are built by two functions from the same infos; tests compare fixed XML texts for a few scans", "anchors": ["malcolm/modules/ADCore/parts/hdfwriterpart.py:58-386"]}
{"id": "C52", "title": "The writer is given the dimensions of the scan", "statement": "For every generator with at most 10 dimensions the child gets each size and name under the right suffix, fastest first and padded with ones, so the product of the sizes is the number of points; with more than 10 it is refused.", "quantifier": "all generators", "why_tests_cant": "tests use 2 or 3 dimensions; suffixes and padding depend on the number", "anchors": ["malcolm/modules/ADCore/parts/hdfwriterpart.py:141-160"]}
{"id": "C53", "title": "The PandA and the driver report exactly the datasets that the tables ask for", "statement": "The infos reported are exactly those of the captured rows with a dataset name, with the attribute names of the captured statistics; refused only for a name that is not alphanumeric; with distinct alphanumeric names no path is twice in the file.", "quantifier": "all tables", "why_tests_cant": "combinations of capture, type and name over rows; tests have a few fixed rows", "anchors": ["malcolm/modules/ADPandABlocks/parts/pandadatasetbussespart.py:50-95", "malcolm/modules/ADCore/infos.py:92-123", "malcolm/modules/ADCore/parts/detectordriverpart.py:311-328"]}
{"id": "C54", "title": "The frames of each raw file of an Odin writer are those dealt to it", "statement": "The shapes given to the raw sources of the virtual dataset are the numbers of frames that Odin deals to each file, in blocks in turn; they add up to the frames of the scan.", "quantifier": "all frame counts, block sizes and file counts", "why_tests_cant": "tests use block size 1 and one or two fixed shapes; the arithmetic differs only for other remainders", "anchors": ["malcolm/modules/ADOdin/parts/odinwriterpart.py:96-111"]}
{"id": "C55", "title": "Every dataset announced by the Odin and Xspress writers can be read in the virtual dataset file", "statement": "After configure each announced dataset names the file made and a path in it, which leads over links to a dataset made of the raw files, with the axes of the scan beside it as NeXus asks; snaked generators and uneven channels are refused.", "quantifier": "all generators, names, templates, block sizes, file and channel counts", "why_tests_cant": "tests check some paths for one generator; the links, the axes and the raw files vary together", "anchors": ["malcolm/modules/ADOdin/parts/odinwriterpart.py:35-111", "malcolm/modules/ADOdin/parts/odinwriterpart.py:114-302", "malcolm/modules/ADOdin/parts/odinwriterpart.py:355-427", "malcolm/modules/xspress3/parts/xspresswriterpart.py:43-130", "malcolm/modules/xspress3/parts/xspresswriterpart.py:133-316", "malcolm/modules/xspress3/parts/xspresswriterpart.py:359-440"]}
{"id": "C56", "title": "A writer's run ends exactly with the last frame of the batch, and it reports the steps done", "statement": "Through any sequence of configure, run, frames, pause with seek and further batches, on_run has returned exactly if the frames of the batch are captured; each report is the steps before the batch plus frames since; the numbers of the stall message are the steps done and set up.", "quantifier": "all sequences of calls and frames", "why_tests_cant": "depends on offsets carried over any number of seeks and batches; tests seek once", "anchors": ["malcolm/modules/ADCore/parts/hdfwriterpart.py:489-529", "malcolm/modules/ADCore/parts/hdfwriterpart.py:618-711", "malcolm/modules/ADOdin/parts/odinwriterpart.py:355-370", "malcolm/modules/ADOdin/parts/odinwriterpart.py:429-480", "malcolm/modules/xspress3/parts/xspresswriterpart.py:359-375", "malcolm/modules/xspress3/parts/xspresswriterpart.py:442-493"]}
{"id": "C57", "title": "The PMAC's tweak of the duration is the servo-aligned one, and is made only once", "statement": "When every point is triggered, half of the duration returned by validate is a whole number of microseconds, and short of the smallest number of servo ticks that holds half of what was asked by less than the jitter allowance plus a microsecond; the tweak is idempotent, so a second validate returns nothing; a guessed duration is positive and, for axes going up, never asks an axis for more than its maximum velocity.", "quantifier": "all servo frequencies up to 900 kHz, durations, trigger types and axes", "why_tests_cant": "ceil, floor and the jitter allowance interact at boundaries; tests try a few frequencies", "anchors": ["malcolm/modules/pmac/parts/pmacchildpart.py:136-209", "malcolm/modules/pmac/parts/pmacchildpart.py:223-293", "malcolm/modules/pmac/util.py:333-349"]}
{"id": "C58", "title": "The run-up brings each axis to the first point with the velocity of the point, the tail-off stops it in its limits", "statement": "point_velocities gives the velocity of the motion through lower, middle and upper bound at its entry or exit, and refuses it exactly if it is over the motor's maximum by a millionth; each axis is sent to where a uniform acceleration within its limit brings it to the lower bound at that velocity; the run-up time is the largest any axis needs; in the tail-off each axis stops where it is sent, in its soft limits.", "quantifier": "all points of uniform acceleration, all sets of axes", "why_tests_cant": "relation between velocities, times and positions of every axis; tests compare one set of numbers", "anchors": ["malcolm/modules/pmac/util.py:188-219", "malcolm/modules/pmac/infos.py:77-89", "malcolm/modules/pmac/parts/pmacchildpart.py:295-327", "malcolm/modules/pmac/parts/pmacchildpart.py:959-990"]}
{"id": "C59", "title": "Between points that are not joined all axes go together along one smooth profile to the start of the next", "statement": "The profile of a gap takes at least min_turnaround and delay_after, the same time for every axis, decided in at most two rounds; its points take in every change of acceleration of every axis; at each of them each axis is where the motion with its piecewise linear velocity is; it starts at the upper bound of the point left and ends at the lower bound of the next.", "quantifier": "all numbers of axes, profiles of the velocity library that keep its contract, and points", "why_tests_cant": "interleaving of the times of several axes; tests use two axes and compare numbers", "anchors": ["malcolm/modules/pmac/util.py:222-298", "malcolm/modules/pmac/parts/pmacchildpart.py:545-613", "malcolm/modules/pmac/parts/pmacchildpart.py:992-1023"]}
{"id": "C60", "title": "The PandA is blind in a gap until the compared axis moves the right way", "statement": "The blind time is that of the last node of the turnaround at which the axis is not moving towards the row, refused exactly if it never does; if the axis is at rest at that node, it moves strictly the right way from then on; with the same axes and delay the profile is that of the motors.", "quantifier": "all profiles, resolutions, directions", "why_tests_cant": "needs the motion between nodes; tests check one blind time", "anchors": ["malcolm/modules/ADPandABlocks/parts/pandaseqtriggerpart.py:74-106", "malcolm/modules/pmac/util.py:222-298"]}
{"id": "C61", "title": "Position compare is set on an axis that is scanned and wired, the one moving most, at the count of the lower bound", "statement": "setup_pcomp_dicts takes exactly the scanned axes wired to both sequencers, each with scale, offset and input of a row of the positions table of that name; _what_moves_most picks an axis moving by most counts, its lower bound's count and direction, refused exactly if none moves; in_cts is a nearest count.", "quantifier": "all positions tables, wirings, axes and points", "why_tests_cant": "depends on table contents and ties; tests have one table", "anchors": ["malcolm/modules/ADPandABlocks/parts/pandaseqtriggerpart.py:47-72", "malcolm/modules/ADPandABlocks/parts/pandaseqtriggerpart.py:368-410", "malcolm/modules/pmac/infos.py:119-122"]}
{"id": "C62", "title": "A proxy block shows what the remote block holds", "statement": "After every history of the remote block whose Deltas only carry changes of the whole block or changes inside an existing field, the proxy block looks like the remote block everywhere that it shows (all fields but health and meta, the value, alarm and time stamp of health, and meta without its list of fields). A Delta starting with the whole block brings the proxy back in step whatever was missed. Known wrong: a field added to or removed from the remote block, a table changed in one column, and anything that follows one of these in the same Delta, never reach the proxy.", "quantifier": "all blocks, all histories of changes and subscriptions, all messages before a recovery", "why_tests_cant": "Tests send one or two hand made Deltas to the client; whether the copy stays equal after any interleaving of changes, groups and replacements needs an invariant over all histories of the server.", "anchors": ["malcolm/modules/web/controllers/websocketclientcomms.py:151-226", "malcolm/core/models.py:131-141", "malcolm/core/models.py:1287-1320"]}
{"id": "C63", "title": "An exported field follows the field it was made from", "statement": "After every history of the source block in which the later changes are inside the exported field and leave its tags and label alone, the exported field looks like the source field everywhere else, its tags are the first ones without the config and group tags, and its label is the one made from the export name. Known wrong: a change of the tags of the source puts the config tags back; a source field that is replaced, or a source table changed in one column, leaves the export as it was.", "quantifier": "all blocks, all histories of changes and subscriptions", "why_tests_cant": "Tests change one value of one child; equality after any sequence of nested changes is a statement about all histories.", "anchors": ["malcolm/modules/builtin/controllers/managercontroller.py:342-392", "malcolm/core/models.py:131-141", "malcolm/core/models.py:375-379"]}
{"id": "C64", "title": "References in a YAML file are replaced by their values", "statement": "In every text whose dollars start either $(name) or nothing, replacing the substitutions one after the other gives the text with all references to known names replaced at once and nothing else touched, whatever their order, if no value contains a dollar; a text without dollars never changes; strings in lists at any depth are replaced in place. Known wrong: with a reference in a value the result depends on the order, and strings in mappings are not replaced.", "quantifier": "all texts, all sets of substitutions, all nestings of lists", "why_tests_cant": "The tests replace one or two names in a few strings; that sequential replacement equals simultaneous replacement for all texts and all orders needs induction over both.", "anchors": ["malcolm/yamlutil.py:288-319"]}
{"id": "C65", "title": "The blocks of a YAML file are made of what is written in it", "statement": "A name has the value of its last define in the file, or else of the argument given, or else of its default, or else of the three built in ones. A file can be used exactly if every argument is a parameter and every parameter without default is given. Every block written in the files, at any depth of blocks and includes, becomes one controller, after those of the blocks in it; every part becomes one part of the block whose file it is in or is included from, filled in with the values of the file it is written in. Known wrong: a reference in the default of a parameter is never replaced.", "quantifier": "all files, all depths of nesting, all arguments", "why_tests_cant": "The tests load a handful of files; nesting depth and the precedence of values are unbounded.", "anchors": ["malcolm/yamlutil.py:20-178", "malcolm/yamlutil.py:203-251"]}
{"id": "C66", "title": "The kinematics datasets announced for a scan are made", "statement": "A scan is accepted exactly if its axes are in one coordinate system and each motor of the coordinate system on the part's port is captured in a row of the positions table other than the first. It then announces the mean of every axis of the scan, and minimum and maximum exactly if no motor is captured by mean or value alone; each is in the VDS file under its path, taken from the Q variable that belongs to the letter of the axis, if the datasets with minimum and maximum are there; the other datasets of the file are the Q variables that no axis uses and the demand positions. Known wrong: a motor in the first row of the table is refused; minimum and maximum can be announced and not made; the coordinate system of the first scan is used for all later ones.", "quantifier": "all layouts, positions tables, scans, and dataset infos", "why_tests_cant": "The one test uses two axes in rows 1 and 2 with all datasets present; row numbers, letters and presence of datasets range over everything.", "anchors": ["malcolm/modules/ADPandABlocks/parts/kinematicssavupart.py:95-205", "malcolm/modules/ADPandABlocks/parts/kinematicssavupart.py:362-412", "malcolm/modules/pmac/util.py:53-143"]}
{"id": "C67", "title": "Savu gets the positions, the variables and the program of the scan", "statement": "The input file links for each motor of the coordinate system the last dataset announced for its value, and for its minimum and maximum exactly if both are there; it is marked for minimum and maximum exactly if all motors have them, and the process list agrees. Each I, P, M and Q variable has its last value that is not in hex, except that resolution and offset which the PandA applied already are 1.0 and 0.0; a word without a value is an error. The program is the forward kinematics line by line. Known wrong: what the part announces itself can be taken as the position of a motor, so that the input of Savu is its own output; the default suffix of the coordinate system gives an mri with two colons.", "quantifier": "all layouts, tables, variables, programs and dataset infos", "why_tests_cant": "The test has two motors, five variables and infos that leave out the part's own; the order of infos and the values are unbounded.", "anchors": ["malcolm/modules/ADPandABlocks/parts/kinematicssavupart.py:207-346"]}
{"id": "C68", "title": "The beam selector serves both detectors once in each step, for long enough", "statement": "For a beam selector whose two detectors are both in the detector table (names unique), enabled, with one frame per step and an exposure > 0, validation asks for exactly the duration td + ti + 2*move_time and, once the generator has it, asks for nothing; configure accepts exactly that generator. A scan from step 0 of N steps drives N times: from the imaging to the diffraction angle in move_time and wait td, then back in move_time and wait ti, where td and ti are the least times not below the detector's exposure, 2 ms and the PMAC's minimum turnaround. Each move starts where the one before ended, the tail too. (A run from step c > 0, as after a pause or at a breakpoint, should do the cycles that are left; it does not, see the refutation.)", "quantifier": "all angles, move times, detector tables, minimum turnarounds, generators with a static first generator, numbers of steps and completed steps", "why_tests_cant": "the tests configure one table of two detectors and one scan of a few steps from step 0; none resumes, and none checks the timing for every table", "anchors": ["malcolm/modules/pmac/parts/beamselectorpart.py:82", "malcolm/modules/pmac/parts/beamselectorpart.py:129", "malcolm/modules/pmac/parts/beamselectorpart.py:161", "malcolm/modules/pmac/parts/beamselectorpart.py:195", "malcolm/modules/pmac/util.py:333"]}
{"id": "C69", "title": "The PMAC gets the trajectory that was written, all of it", "statement": "A profile is accepted exactly if the trajectory program is version 2 or later, the CS port (for a build) is a choice of the block, and the optional arrays have one value per point. A successful build followed by successful appends for the same axes leaves the PMAC with exactly their arrays in order (zeros for the arrays left out), with the CS and axes of the build in use, and executeProfile returns exactly if the number of points scanned is that of all of them. A refused call leaves the profile in the PMAC as it was; with too old a program nothing has changed at all.", "quantifier": "all arguments, states of the PMAC block, numbers of appends", "why_tests_cant": "the tests write one profile of a few points; a wrong count or a stale array shows only in particular sequences of build, append and failure", "anchors": ["malcolm/modules/pmac/parts/pmactrajectorypart.py:40", "malcolm/modules/pmac/parts/pmactrajectorypart.py:96", "malcolm/modules/pmac/parts/pmactrajectorypart.py:184"]}
{"id": "C70", "title": "The CS and axis shown for a motor are those of its readbacks", "statement": "The choices for the cs of a raw motor are no CS and each axis (A..Z of a CS, or I) of each port but the first. From the connection on and through any updates, the cs shown is made of the last readings of port and axis, with an alarm if one of them is bad, and is one of the choices. Putting a choice sends the index of its port and its axis, and if these are read back it is shown. It equals the connected value of one source port only: that axis of the CS block with that port. The PMAC port and axis number are those of the OUT link PREFIX(PORT,n); a compound motor shows PORT with axis number n for n = 1..9 and is an error beyond.", "quantifier": "all lists of ports, readings, sequences of updates, OUT links", "why_tests_cant": "the tests have one list of ports and a handful of readings; the special case of the first port is only right on one of three paths", "anchors": ["malcolm/modules/pmac/parts/rawmotorsinkportspart.py:66", "malcolm/modules/pmac/parts/rawmotorsinkportspart.py:106", "malcolm/modules/pmac/parts/rawmotorsinkportspart.py:145", "malcolm/modules/pmac/parts/compoundmotorsinkportspart.py:54", "malcolm/modules/pmac/parts/cssourceportspart.py:46"]}
{"id": "C71", "title": "A move in a CS goes to the CS asked for, and all its axes start together", "statement": "For a CS port that ends in the number n, the method called is moveCS<n>, and (n < 10) the CS part accepts the port exactly if its own number is n. move defers the moves, puts the time in ms, then each demand given, once, and nothing else; if all demands are received it releases the moves, and only then.", "quantifier": "all port names, CS numbers, demands, times and responses of the PVs", "why_tests_cant": "the tests have one CS of one digit and demands that are always received", "anchors": ["malcolm/modules/pmac/parts/cspart.py:40", "malcolm/modules/pmac/parts/cspart.py:53", "malcolm/modules/pmac/parts/pmacchildpart.py:295"]}
{"id": "C72", "title": "The attributes of a PandA block are those of its fields", "statement": "If a block is made from the fields the device tells of, each field of a known type (other than HEALTH) has the handlers its type calls for - a param, read, write, time, mux with delay, out, ext_out capture or table - under the field name and its suffixes, nothing else but the label has one; attribute names are camel case, without duplicates, one for each handler; the muxes are the bit_mux and pos_mux fields, and the choices of a mux are a permutation of the device's with the constants first and the rest sorted. Snake case names are mapped to different attribute names, and a block with such names of known types is always made.", "quantifier": "all dictionaries of field names and field data", "why_tests_cant": "the tests have a few blocks of fixed fields; a clash of names or a missing suffix shows up only with other firmware", "anchors": ["malcolm/modules/pandablocks/controllers/pandablockcontroller.py:52", "malcolm/modules/pandablocks/controllers/pandablockcontroller.py:154", "malcolm/modules/pandablocks/controllers/pandablockcontroller.py:186", "malcolm/core/camel.py:1"]}
{"id": "C73", "title": "A PandA attribute shows what the device last reported", "statement": "Each change *CHANGES? tells of reaches the block and field it is for, the last one of a field wins, fields not named keep their value and tags; the attribute then has the value told, the label falls back to the description, HEALTH sets or clears the alarm, a mux has one link tag to the attribute of its source or none for a constant. With sets by a client interleaved with polls, where no poll is handled between the end of the send of a set and its return, the attribute equals the field on the device once there is no change left to tell.", "quantifier": "all sequences of changes; all interleavings of sets, polls and changes on the device", "why_tests_cant": "depends on the interleaving of two threads with the device, and on the order of changes in a reply", "anchors": ["malcolm/modules/pandablocks/controllers/pandablockcontroller.py:99", "malcolm/modules/pandablocks/controllers/pandablockcontroller.py:142", "malcolm/modules/pandablocks/controllers/pandamanagercontroller.py:239", "malcolm/modules/pandablocks/controllers/pandamanagercontroller.py:288", "malcolm/modules/pandablocks/parts/pandafieldpart.py:60", "malcolm/modules/pandablocks/parts/pandalabelpart.py:20"]}
{"id": "C74", "title": "A PandA is polled once a period, later only if handling is slow", "statement": "The first poll is a period after the start. The next poll is a period after the one before if its changes were handled within half a period, else half a period after the end of the handling; so at least half a period is left to others and time lost is not made up. The period reported is the time between these two polls.", "quantifier": "all periods, start times and handling times", "why_tests_cant": "needs control over the clock in each round", "anchors": ["malcolm/modules/pandablocks/controllers/pandamanagercontroller.py:116"]}
{"id": "C75", "title": "A PandA that is Ready is being polled and its blocks are there", "statement": "For every sequence of init, reset, disable and failures in which the PandA is disabled before a reset after a failed poll loop or a half made set of blocks, Ready means that the loop runs, the client is started and the blocks are in the process; Disabled means that neither runs; disable then a reset that reaches the device brings it back.", "quantifier": "all sequences of init, reset, disable, failed connections, failures while making blocks, failures of the loop", "why_tests_cant": "the failures have to come in certain orders", "anchors": ["malcolm/modules/pandablocks/controllers/pandamanagercontroller.py:90", "malcolm/modules/pandablocks/controllers/pandamanagercontroller.py:96", "malcolm/modules/pandablocks/controllers/pandamanagercontroller.py:152"]}
{"id": "C76", "title": "Every controller in a started process is published, once", "statement": "If no controller is below itself in the tree of parts, the list given to the publish hook has every controller of the process but those that asked not to be published, each once, those that are in no other controller first and in the order in which they were added. After any start, add_controllers and stop calls that were not refused, also where controllers are added while the process starts, a started process has started each controller and last published the complete list; a call is refused exactly if it is start when running, stop when not started, or adds a name twice.", "quantifier": "all trees of controllers; all histories of start, add, stop", "why_tests_cant": "the tests publish three blocks; order of addition against order in the tree, shared children and adding during start are many combinations", "anchors": ["malcolm/core/process.py:104", "malcolm/core/process.py:75", "malcolm/core/process.py:213"]}
{"id": "C77", "title": "When stop returns every spawned function has ended", "statement": "For all interleavings of spawn, ends of functions and stop in which the list of spawned functions is not cleared while stop waits, all functions that were ever spawned have ended when stop returns, and it can return once they have; Spawned.wait returns only when there is a result, and no thread is left waiting if one waits at a time.", "quantifier": "all interleavings", "why_tests_cant": "needs control of the order in which threads end, and 1000 spawned functions", "anchors": ["malcolm/core/process.py:160", "malcolm/core/process.py:189", "malcolm/core/concurrency.py:54"]}
{"id": "C78", "title": "The detectors table given back by validate is the one asked for, filled in", "statement": "For all detectors with at most one row each, in whatever order they answer, where at most nine ask for something: validate gives back the generator unchanged, every row that was complete or of no detector unchanged, each open exposure filled in with the longest that fits its frame, each open number of frames with as many as fit, and a row that switches it off for each detector without one. With ten or more validate fails.", "quantifier": "all tables, generators, detectors and orders of answers", "why_tests_cant": "the tests use two detectors; order of answers and number of rounds are not reached", "anchors": ["malcolm/modules/scanning/parts/detectorchildpart.py:139", "malcolm/modules/scanning/parts/detectorchildpart.py:255", "malcolm/modules/scanning/controllers/runnablecontroller.py:354", "malcolm/modules/scanning/util.py:213"]}
{"id": "C79", "title": "File names for Windows detectors name the right file", "statement": "translate_filepath succeeds exactly if the part infos contain exactly one FilePathTranslatorInfo, the path starts with its prefix and holds no colon. For a non-empty prefix that does not occur again in the path, the result is the drive letter and colon (or the network prefix followed by the path prefix) followed by the rest of the path with slashes turned into backslashes, so two different paths without backslashes never become the same. No result holds a forward slash. The XML file of a block in a translatable directory is translatable, and blocks whose mris hold no underscore have different XML files. Not promised by the code, and shown by counterexample: that a second occurrence of the prefix is left alone, that the prefix ends at a directory, that mris differing in ':' and '_' have different files.", "quantifier": "for all part infos, translators, paths, mris and suffixes", "why_tests_cant": "Tests try a handful of paths under /foo or /tmp; none has the prefix twice, a sibling directory of the prefix or two mris that collide.", "anchors": ["malcolm/modules/ADCore/infos.py:7-48", "malcolm/core/info.py:21-84", "malcolm/modules/ADCore/util.py:110-112"]}
{"id": "C80", "title": "PandA pulses gate each frame of a detector", "statement": "PandAPulseTriggerPart.on_configure succeeds exactly if the duration is positive, the first row of the detectors table for its detector has frames if it is enabled, and the exports Pulses, Width, Step and Delay exist, belong to one block that is in the layout, whose width, step and delay are in seconds. If then the exports stand for the attributes they are named after, on_post_configure makes the PULSE block give, for each trigger, one pulse for each frame, as wide as the detector's exposure (or 1 us less than the frame); the frames fill the duration exactly, each pulse is in its frame and in the middle of it (at its start with zero_delay), and no two pulses overlap, neither in a point nor from point to point. A detector that is disabled gets no puts. Not promised, and shown by counterexample: that the width is positive for the duration the part itself asks for, and that the exports stand for the right attributes.", "quantifier": "for all tables, exports, layouts, units, durations, frame numbers, exposures, trigger times", "why_tests_cant": "Tests configure one PandA with one set of exports and compare four numbers; overlap and centring over all points and frames and the exact acceptance are not checked.", "anchors": ["malcolm/modules/ADPandABlocks/parts/pandapulsetriggerpart.py:36-203"]}
{"id": "C81", "title": "Detector drivers are told exposures and sample numbers that fit the frame", "statement": "After configure or seek any detector has the exposure asked for and an acquire period of that plus its readout time, within the frame if the exposure fits; hardware triggered without breakpoints it keeps them for all later runs. An Andor whose frame has room for its readout gets a period that ends before the frame, with the exposure asked for if it fits and otherwise the longest that fits; in frame transfer mode it is accepted exactly if the frame is longer than the accumulate period. A Reframe plugin with start triggers is told a positive number of samples that leaves at least one and less than two sample times before the next trigger, and is refused exactly if there is no such number. A TetrAMM always gets the least number of values per read, at least five, that keeps a frame within the target number of samples. An XMAP that is set up with breakpoints or for all remaining steps is told as many pixels as images. Not promised, and shown by counterexample: that later runs keep the period (or, for an Andor, the exposure), that an Andor gives the exposure it was validated for (it never does for the duration its own on_validate asks for), that it refuses a frame shorter than its readout, that a validated duration can be set up by Reframe, that an XMAP is told the pixels of all runs it is armed for.", "quantifier": "for all durations, exposures, readout times, sample frequencies, targets, sequences of later runs", "why_tests_cant": "Tests configure each driver once with one duration and compare the puts.", "anchors": ["malcolm/modules/ADCore/parts/detectordriverpart.py:105-147,337-488", "malcolm/modules/ADAndor/parts/andordriverpart.py:51-179", "malcolm/modules/adUtil/parts/reframepluginpart.py:40-118", "malcolm/modules/ADTetrAMM/parts/tetrammdriverpart.py:36-48", "malcolm/modules/xmap/parts/xmapdriverpart.py:21-50"]}
{"id": "C82", "title": "The layout table of a PandA and the layout that the device keeps agree", "statement": "At any time, whatever tables users put (or designs load), whatever layouts the device reports and whatever else the manager does, the blocks visible in the layout table of a PandA manager are those of the layout that the device keeps, at the places kept, and the others are hidden. A layout reported by the device is shown as it is, and is not written back; a put table is written to the device exactly if the device's layout is not already that of the table, and names in the device's layout that are no blocks are kept.", "quantifier": "For all parts with different names, all initial layouts, all sequences of puts, device reports and other operations of the manager, and any order in which Python lists a set.", "why_tests_cant": "A test puts one table or reports one layout; that the two stores never drift apart, and that there is no write loop between device and manager, is about all interleaved histories.", "anchors": ["malcolm/modules/pandablocks/controllers/pandamanagercontroller.py:272-286", "malcolm/modules/pandablocks/controllers/pandamanagercontroller.py:314-335", "malcolm/modules/builtin/controllers/managercontroller.py:143-157"]}
{"id": "C83", "title": "Each change that a PandA reports reaches its block", "statement": "With roots that do not end in a digit, all blocks of a PandA have different names, each is found by its name and by its root with its number (as labels use it, also for a single block), and no name leads to another block. A batch of changes for blocks that exist is delivered in full: each block is given the last value of each of its fields and its label, and nothing else; one change for a block that does not exist makes the handling fail. The busses are told of exactly the positions with their capture, units, scale and offset, the bits and the capture words.", "quantifier": "For all sets of block roots with any number of blocks each, and all batches of changes.", "why_tests_cant": "Tests use a few block names; that aliases with a 1 appended never collide with a numbered block needs an argument about all names.", "anchors": ["malcolm/modules/pandablocks/controllers/pandamanagercontroller.py:160-207", "malcolm/modules/pandablocks/controllers/pandamanagercontroller.py:271-312"]}
{"id": "C84", "title": "A value sent over pvAccess is what the client reads", "statement": "Every value that pvaconvert turns into a p4p Value is read back by the client as the same tree: each item under the same path, numbers with the pvAccess type of their Python type, enums by value, alarm codes as int32, typeids kept, and nothing added (the labels of a table are not seen as an item). A dict is converted exactly if all numbers have a known type, all arrays have one dimension, lists hold only dicts or None, no name is used twice and the columns of a table have labels.", "quantifier": "all Python values of any depth", "why_tests_cant": "Tests convert a few hand made values; the property is about every nesting of dicts, tables, lists and arrays, and needs an induction over the tree.", "anchors": ["malcolm/modules/pva/controllers/pvaconvert.py:15-150"]}
{"id": "C85", "title": "While a PV is open its value is the block", "statement": "For every history of changes of the block, first connections and last disconnections, where each change either gives a value of the same type to something that is there, or adds, deletes or replaces: while the PV is open its value is the block as it is now. It opens for every block that can be sent, stays open while types stay, is closed by the first change of the shape and stays closed until the last client has gone; the next client gets the block as it is. Known wrong: a dict sent again with fewer items leaves the old items in the open PV.", "quantifier": "all blocks, all lists of changes, all histories", "why_tests_cant": "The copy is updated in place by paths; whether it can drift from the block after some order of updates, failures and reconnections needs an invariant over all histories.", "anchors": ["malcolm/modules/pva/controllers/pvaservercomms.py:171-262", "malcolm/modules/pva/controllers/pvaconvert.py:118-150"]}
{"id": "C86", "title": "A Put, a call or a channel of pvAccess is for what its name says", "statement": "A Put over pvAccess is accepted exactly if something in the value of exactly one field that is neither a method nor the meta of the block was set, and then it puts to the value of that field. A call is accepted exactly if it names a method of the block, by mri.method, by the field of the PV or by the pvRequest, and it posts to that method with the parameters given; what a client posts is what the server gets. A channel name is served exactly if it is a published block or a field of one, two clients share a PV exactly if the names stand for the same, and after a block is taken back no PV of it is left. Known wrong: a method that returns something else than a dict returns a dict with the item return through a pvAccess proxy.", "quantifier": "all blocks, all sets of marked fields, all names, all histories of publishing, stopping and connecting", "why_tests_cant": "Tests put to one attribute and call one method; the set intersection, the prefix tests and the life time of PVs have to be right for all names and histories.", "anchors": ["malcolm/modules/pva/controllers/pvaservercomms.py:42-169", "malcolm/modules/pva/controllers/pvaservercomms.py:197-219", "malcolm/modules/pva/controllers/pvaservercomms.py:265-368", "malcolm/modules/pva/controllers/pvaclientcomms.py:150-166"]}
{"id": "C87", "title": "A proxy block over pvAccess shows what the server holds", "statement": "For any history of a pvAccess channel (first value of each connection a serialized block, later values with everything that differs marked, losses of the connection, other exceptions) and any order in which the set of changed fields is gone through, while there is a connection every field of the proxy block, the value, alarm and time stamp of its health and its meta are those of the last value sent; a loss of the connection changes health to disconnected and nothing else; sync_proxy waits exactly until the first value. Not so for a change inside the elements of a table meta (it raises and the rest of the update is lost), nor does a put to exports tell that the server refused it once there was a reconnection.", "quantifier": "all blocks, all histories of events, all iteration orders of the set", "why_tests_cant": "A test replays a handful of updates of one block; which prefixes of the changed paths are applied, and after which history, is a property of all structures and all sequences of updates.", "anchors": ["malcolm/modules/pva/controllers/pvaclientcomms.py:34-148", "malcolm/core/models.py:113-141"]}
{"id": "C88", "title": "The icon of a LUT block tells its function", "statement": "For every value of FUNC of a LUT block, the icon shows exactly one of AND, OR, NOT and LUT; if it is AND, OR or NOT, then for all 32 combinations of the inputs the output of the LUT is that gate applied to the inputs shown, negated where the icon has a circle; if LUT, all inputs are shown. Conversely each AND or OR of the first two to five inputs with any negations, and each single negated input, is drawn as such.", "quantifier": "all 2^32 values of FUNC, all inputs, all negations", "why_tests_cant": "A test compares a few FUNC values with expected element sets; that no entry of the generated table overwrites another one and that every entry fits the truth table is a statement about all of them.", "anchors": ["malcolm/modules/pandablocks/parts/pandaluticonpart.py:8-79"]}
{"id": "C89", "title": "An attribute that is an EPICS PV shows the PV, and not too often", "statement": "After any history of connects, monitor updates, disconnections and puts, an attribute of the ca module shows the last value that its type can hold, with the alarm of the PV (ok exactly for severity 0); a PV that is lost is shown as disconnected with its last value. However fast the PV updates, in any period the attribute is updated at most twice per min_delta plus four (not once, as the code says: two per min_delta happen for ever). A choice that is put is the choice that is read back. A method of the module returns only if the good status came before its deadline, and does so if it came.", "quantifier": "all histories of events, all times of updates, all choices, all sequences of status values", "why_tests_cant": "A test sends a few updates with a mocked catools; a bound on the rate and the state after any interleaving of updates, losses and puts are claims about all histories.", "anchors": ["malcolm/modules/ca/util.py:107-177", "malcolm/modules/ca/util.py:228-273", "malcolm/modules/ca/parts/caactionpart.py:98-136", "malcolm/modules/ca/parts/cachoicepart.py:40-47"]}
{"id": "C90", "title": "A table of waveforms shows the last value of each PV", "statement": "While all PVs are connected, after any history a CAWaveformTable has for each column the last value of its PV, and its alarm is the worst that there ever was. It should be that of the PVs now, and that of a PV that is lost should be shown; both are false: an alarm never goes away, and a disconnection is never shown.", "quantifier": "all tables, all histories of updates", "why_tests_cant": "A test sees a few updates; that an alarm never clears shows only in histories with more than one update of a PV in alarm.", "anchors": ["malcolm/modules/ca/util.py:155-166", "malcolm/modules/ca/util.py:276-369"]}
{"id": "C91", "title": "configure takes what the parts ask for, and each part gets it", "statement": "For any set of parts and any history of the infos that they report, configure and validate take the same arguments: those of the controller and those of the last info of each part; an argument is required exactly if the controller or some part can not do without it, its type is that of the first part that requires it or the last that takes it, it has a default exactly if no part requires it and some part has one, which is that of the last part, or for the detectors table the rows of all visible detectors in the order of the parts. A call is taken exactly if the required arguments are given, no others, of the right types; then each part whose arguments have defaults other than None is called with what was given or the default. Two parts with different defaults both get the one of the last, and a default of None is not taken.", "quantifier": "all lists of infos, all histories of reports, all calls, all part functions", "why_tests_cant": "Tests check the arguments of one or two blocks; the claim is about every combination of parts, every order of reports and every call.", "anchors": ["malcolm/modules/scanning/controllers/runnablecontroller.py:59-118", "malcolm/modules/scanning/controllers/runnablecontroller.py:297-366", "malcolm/modules/scanning/hooks.py:119-166", "malcolm/core/models.py:994-1044", "malcolm/core/hook.py:126-143", "malcolm/modules/scanning/parts/detectorchildpart.py:83-109"]}
{"id": "C92", "title": "An unrolled scan is the scan", "statement": "With a visible UnrollingPart and two or more axes to move, a scan that validate accepts is the scan as asked for with the axes to move squashed: they all end up in one dimension (the sizes and the order of the axes are kept), whatever durations other parts ask for and in whatever order the parts answer; if the others agree on a duration, validate always gets there. The unrolled scan is run in exactly the same steps as the scan as asked for (or refused alike). A scan that moves an axis that may not be moved together, or has other than two frames for an enabled double triggered detector, is refused.", "quantifier": "all generators, axes, excluders, breakpoints, sets of other parts, orders of answers and detector tables", "why_tests_cant": "Tests validate one part alone with one generator; here several parts tweak the same generator at once and only one of the tweaks is kept each round.", "anchors": ["malcolm/modules/scanning/parts/unrollingpart.py:30-53", "malcolm/modules/scanning/parts/simultaneousaxespart.py:33-42", "malcolm/modules/scanning/parts/doubletriggerpart.py:36-63", "malcolm/modules/scanning/util.py:213-227", "malcolm/modules/scanning/controllers/runnablecontroller.py:231-287"]}
{"id": "C93", "title": "A block at rest has nothing running, and its shutter is closed", "statement": "Over all interleavings of configure, run, reset, pause, resume, abort and disable, with one client that interrupts: no hook of a part is running while the state says Ready, Armed, Paused, Finished or Aborted; and the AttributePreRunPart has put its reset value, and nothing since, while the state says Paused, Finished or Aborted. The same should hold with the shutter while Armed or Ready, for two clients, for hooks that take longer than the pause waits, for seeks to an earlier run, and an abort or pause that returns should have done its work without a fault; each of these is false: between two runs and after a failed run and reset the shutter is open; an abort before the contexts exist is lost and ends in Fault; a pause as run starts leaves the block Armed with run waiting for ever; a pause whose wait times out leaves the block Paused with PreRun running; a seek back to an earlier run within the last ends Finished with the shutter open; an abort during a pause is followed by a Fault. A pause or an abort that waits for the call it stopped is answered.", "quantifier": "all interleavings of the threads of all histories of calls, all outcomes of the hooks", "why_tests_cant": "A race needs a particular interleaving of two threads; tests run one.", "anchors": ["malcolm/modules/scanning/controllers/runnablecontroller.py:418-756", "malcolm/modules/builtin/controllers/statefulcontroller.py:94-168", "malcolm/modules/scanning/parts/attributeprerunpart.py:45-61"]}
{"id": "C94", "title": "A manager offers the fields its children have, and shows those that are exported", "statement": "Whatever a child block's fields do over time, a ChildPart keeps exactly one live subscription to each config-tagged writeable attribute (or managed port) that has come and has not left since, and reports the child's present fields and the ports among them; the manager's export choices are then exactly what its parts last reported, and its block shows the fields of its visible parts followed by one field for each export whose source a visible part has.", "quantifier": "for all sequences of child updates, and for all sequences of reports, layout changes, export changes, loads and saves of any manager", "why_tests_cant": "needs every order of child updates, layout puts, export puts and loads; tests try one fixed child and one export table", "anchors": ["malcolm/modules/builtin/parts/childpart.py:225-330", "malcolm/modules/builtin/controllers/managercontroller.py:200-330", "malcolm/modules/builtin/controllers/managercontroller.py:500-570"]}
{"id": "C95", "title": "The status block of an IOC tells what it runs and whether it runs", "statement": "The dependencies table of the status block of an IOC lists each module that configure/RELEASE of its directory gives a value, once, in the order of the file, with the last value given; in each path every $(NAME) of a module with a value is replaced by that module's path, at any depth and whatever the order of the lines, as long as the definitions used do not run in circles; other references stay. The directory is the last good value of APP_DIR1 followed by that of APP_DIR2. The health after an update of DLSVER says OK, non-prod, not running, or neither running. Each name in a space-separated ioc_list gets one block NAME:STATUS and one part. Findings: a status update of procServ shows a dead IOC as OK again; that procServ has gone is never shown; a RELEASE with only comments leaves the old table; two spaces in ioc_list make a block for an IOC without name.", "quantifier": "all RELEASE files with matching brackets, all histories of PV updates, all lists of names", "why_tests_cant": "The tests use one RELEASE file; the order of definitions, chains of references, cycles beside them and histories of PV updates are unbounded.", "anchors": ["malcolm/modules/system/parts/dirparsepart.py:22-188", "malcolm/modules/system/controllers/ProcessController.py:81-83", "malcolm/modules/system/controllers/ProcessController.py:169-230"]}
{"id": "C96", "title": "The sequencers of a PandA are loaded while their gate is shut, and the gate is shut again", "statement": "PandASeqTriggerPart uses exactly the two SEQ blocks whose tables the PandA exports as seqTableA and seqTableB. Over every history of configure, run, pause, seek, abort, reset, faults and disable, stopped after any step, each table that on_configure writes is written while the gate of that PandA is shut, if all gates were shut when the process started; in the states ready, armed, paused and aborted every gate is shut and no sequencer is subscribed to; only the PandA last configured can have an open gate. Once armed, the two sequencers hold the first tables for the steps to come. A run opens the gate once, in PreRun if there are axes to follow and else in Run, and ends only when every table for its steps has been written. Findings: the gate stays open after a finished scan; after a restart of the process the first configure writes into running sequencers.", "quantifier": "all exports and layouts, all histories of hooks stopped after any step, all tables", "why_tests_cant": "A unit test runs one configure and one run with mocked blocks; the histories of pause, abort, faults and re-configuration are unbounded.", "anchors": ["malcolm/modules/ADPandABlocks/parts/pandaseqtriggerpart.py:263-288", "malcolm/modules/ADPandABlocks/parts/pandaseqtriggerpart.py:412-545", "malcolm/modules/scanning/controllers/runnablecontroller.py:430-720"]}
{"id": "C97", "title": "The file of the demonstration detector has every step once it is reported, under an id of its own", "statement": "FileWritePart, over every history of configure, run, pause, seek, abort and reset with runs stopped anywhere: the unique ids in a file are positive and strictly increasing in the order of the writes, and at each index are the id, image and sum of the last write there; whoever sees the id of a write in the file finds the image and sum of that step there; a closed file has all that was written; progress is reported only for a step that was written; a run whose points are in the shape of the scan is never refused by the file, and if not stopped writes all its steps and makes them readable; if no seek goes past a step that was not written, all steps before the current place are in the file; the datasets that the part reports are those of the file, with their ranks, under distinct paths; the table of datasets has a row for exactly each dataset reported.", "quantifier": "all histories of hooks, all generators, all flush times, all prefixes of a run", "why_tests_cant": "A test runs one or two scans of a few points and reads the file at the end; the claims are about every interleaving of pauses, seeks, flushes and a reader.", "anchors": ["malcolm/modules/demo/parts/filewritepart.py:64-222", "malcolm/modules/scanning/parts/datasettablepart.py:29-48", "malcolm/modules/scanning/controllers/runnablecontroller.py:428-720"]}
{"id": "C98", "title": "The demonstration motors go to where each point starts and ends, and not back", "statement": "A counter that CounterMovePart moves goes from where it is to the demand without going back, if the clock does not, and ends at the demand when its time is over. MotionChildPart takes an axis to the start of the first point from wherever it was at configure and at every seek; if moves end in the order they are asked for, each turn of on_run starts what takes time at the start of the point and leaves the axis at its end; the run reports one more than each step, and stops at exceptionStep exactly if that is one of its steps. Findings: with the clock set back the counter leaves the way; the two moves of a point race, so a late run can leave the axis at the start of its last point; an axis moved while paused is not taken back; a point at which no axis moves takes no time.", "quantifier": "all positions, clocks, steps and states of the mover", "why_tests_cant": "A test moves one counter with a mocked clock and checks the calls that are made; it cannot cover all clocks and orders of threads.", "anchors": ["malcolm/modules/demo/parts/countermovepart.py:36-50", "malcolm/modules/demo/parts/motionchildpart.py:13-119"]}
{"id": "C99", "title": "A view shows what the block has now, and calls reach the field it stands for", "statement": "A view of a block can be held for ever: each attribute of it is the field the block has under that name now, and a name without a field raises. A view of a field that is held sends puts and posts to that same field or they are refused, never to another field. A view can be made of every block and offers all its fields, an async function per method, and nothing of the internal models; what is given to put_attribute_values and to a method, by position or by name, arrives there completely and under the right names.", "quantifier": "all histories of setting, replacing and removing fields of blocks, with or without refusals, all moments at which a view is made and used, all names, arguments and data", "why_tests_cant": "A test takes one view of one block and uses it at once; whether it stays right depends on the history of the block in between, on the names of fields and on refused operations.", "anchors": ["malcolm/core/views.py", "malcolm/core/controller.py:70-122", "malcolm/core/models.py:45-76", "malcolm/core/models.py:1278-1320", "malcolm/core/part.py:56-90"]}
{"id": "C100", "title": "The file writer captures only when it is set up in full, and cleans up after itself", "statement": "Whatever hooks of the HDF writer raise at whatever point: position mode is put first; whenever the plugin captures, every setting of the scan has reached it, nothing is still on its way, and the layout file it was told of is there; there is never more than one layout file; when the detector is Ready again no layout file is left, the plugin is stopped and the part holds no open file. Two blocks without underscores in their names never share a layout file in a directory.", "quantifier": "all histories of configure, reset, abort and configure after finished, each cut short at any request; all directories, names, dimensions and mris", "why_tests_cant": "Tests run a configure and a reset that both come to their end; what a hook leaves when it raises in the middle, and the next reset after that, is a matter of every point of every history.", "anchors": ["malcolm/modules/ADCore/parts/hdfwriterpart.py:467-482", "malcolm/modules/ADCore/parts/hdfwriterpart.py:510-598", "malcolm/modules/ADCore/util.py:110-112", "malcolm/modules/scanning/controllers/runnablecontroller.py:463-468"]}
{"id": "C101", "title": "The HDF writer gives up on a run exactly when no frame was written for too long", "statement": "Once the first array has come, on_run ends in one of three ways and exactly when: the number of captured frames is the awaited one; a check finds that the capture raised; or a check comes more than frame_timeout after the last update of the number of frames. While it waits it flushes at every check for as long as the plugin captures and reports every number of frames. A scan whose updates come within its exposure and a minute (two minutes without one exposure) is never said to be stalled, and the first array of a scan may take any time.", "quantifier": "all sequences of updates and checks, at all times; all durations, numbers of frames and offsets", "why_tests_cant": "Tests mock one sequence of updates and one timeout; that the clock restarts with every update, in every interleaving with the checks, is about all sequences.", "anchors": ["malcolm/modules/ADCore/parts/hdfwriterpart.py:523-532", "malcolm/modules/ADCore/parts/hdfwriterpart.py:638-681", "malcolm/modules/ADCore/parts/hdfwriterpart.py:705-714"]}
{"id": "C102", "title": "The XML files given to detectors and file writers say what was meant", "statement": "A conforming reader of the attribute file of a driver gets one element per row of the table, in order, with its name, source and description exactly as they are (quotes, angle brackets, ampersands, tabs and line ends included) and the type that belongs to its kind; the same of the file of a statistics plugin and of the layout file of the file writer, whatever the generator and the reports of the parts. A table is refused exactly when a parameter has the native type. After a reset the driver holds no file of an earlier scan; a scan after a reset has the attributes of the table in force, or none if it is empty; with a reset after every scan no file stays behind.", "quantifier": "all trees of elements, tables of rows, generators and part reports whose text may be in a document; all histories of puts of the table, configures and resets", "why_tests_cant": "Tests compare the file of one table with one expected text and never with quotes or line ends; that escaping and reading are inverse, and what the driver holds over histories of scans, needs all texts and all histories.", "anchors": ["malcolm/compat.py:19-27", "malcolm/modules/ADCore/parts/detectordriverpart.py:186-227", "malcolm/modules/ADCore/parts/detectordriverpart.py:303-311", "malcolm/modules/ADCore/parts/detectordriverpart.py:424-439", "malcolm/modules/ADCore/parts/statspluginpart.py:58-108", "malcolm/modules/ADCore/parts/hdfwriterpart.py:273-391"]}
{"id": "C103", "title": "Every trigger of a scan finds the detector armed", "statement": "Over any course of scans - runs split by breakpoints, pauses and seeks to any step, aborts and resets, triggers from outside or from the detector itself - the detector is never started while it still acquires, every trigger of a run gives a frame, the run is over exactly with the frame of its last step, and the completed steps reported are those triggered. It is started once per scan and per seek with triggers from outside (once per stretch too with breakpoints), and once per run with its own. Ids only go up within a scan, over all its pauses, and the detector is idle after a scan is done or was stopped.", "quantifier": "all soft trigger modes, sizes, stretches of steps, numbers of triggers before each pause, and sequences of scans", "why_tests_cant": "Tests run one hook at a time against a mocked child and check its puts; whether triggers meet an armed detector depends on the whole order of configure, run, pause, seek and post run.", "anchors": ["malcolm/modules/ADCore/parts/detectordriverpart.py:105-180", "malcolm/modules/ADCore/parts/detectordriverpart.py:337-493"]}
{"id": "C104", "title": "The client of a PandA knows what the PandA has and tells it what was meant", "statement": "For every PandA (any blocks, fields, tables and columns with names of letters, digits and underscores), against a server that answers the requests of the protocol, get_blocks_data gives exactly its blocks, in order of name, each with its number, description and fields in order of index with their types, descriptions and labels; get_table_fields gives the columns of a table in their order with bits, description, labels (just for enums) and sign (just for int); get_pcap_bits_fields gives just the groups of bits of PCAP with their bits. get_changes gives each piece of news in its order, values with equals signs whole, and then each table that was written once with its rows. What set_fields sends is read by the server as one assignment per field, with the name and value meant, and it ends well exactly when all answers are OK; what set_table sends is read as one overwrite with the numbers meant. A value with a line end is read as a second command.", "quantifier": "for all devices, orders of blocks and fields in the answers, all lists of changes, all field values and tables", "why_tests_cant": "Tests play back one recorded PandA; they don't cover other orders, sets of blocks or values", "anchors": ["malcolm/modules/pandablocks/pandablocksclient.py:181-372"]}
{"id": "C105", "title": "A scan and its detector together: no trigger of any history is missed", "statement": "Take the scan block and a detector driver together: configure with any breakpoints, runs, pauses, seeks, resumes, aborts and resets of the block in any order, each passing to the detector just what its hooks pass. Then the detector is never started while it acquires and no trigger of a run finds it idle. In a run it acquires until it had one trigger for each step, and then, not before, the run is over; the steps it reports are the steps done. Out of a run it acquires only while Armed or Paused, and there just when it is triggered from outside. A scan that comes to its end without a pause has given exactly one frame for each step, in however many runs.", "quantifier": "all generators, breakpoints, trigger modes and histories of calls, reports and triggers", "why_tests_cant": "it composes two state machines in two packages; tests drive the controller with mock parts and the driver part with hand-written completed/steps values, never an arbitrary interleaving of both", "anchors": ["malcolm/modules/scanning/controllers/runnablecontroller.py:430-742", "malcolm/modules/ADCore/parts/detectordriverpart.py:160-493"]}
{"id": "C106", "title": "A run is over when every frame of it is in the file, and completed steps are in the file", "statement": "Take the scan block, a detector driver and the HDF writer together, frames reaching the file any time after they are taken. If runs are paused only when no frame is on its way: the writer ends its run exactly when all frames of the run are in the file; a Finished scan has none on its way, and one that was not paused has exactly as many frames in the file as it has steps; and in runs in which parts report only after the writer listens, completedSteps is never past what is in the file. Without the first condition a scan can be Finished with a frame missing; without the second completedSteps can be ahead of the file.", "quantifier": "all generators, breakpoints, trigger modes and all interleavings of calls, reports, triggers and arrivals of frames", "why_tests_cant": "needs interleavings of three components with frames in flight; tests drive each part with fixed numbers", "anchors": ["malcolm/modules/scanning/controllers/runnablecontroller.py:430-742", "malcolm/modules/ADCore/parts/detectordriverpart.py:160-493", "malcolm/modules/ADCore/parts/hdfwriterpart.py:512-529", "malcolm/modules/ADCore/parts/hdfwriterpart.py:618-711"]}
{"id": "C107", "title": "The motors pass every point of a run before the run is over, and progress is not ahead of them", "statement": "Take the scan block and a PMAC that moves its axes, with a trigger at every point. In every history the completed steps of the block, and the step that the PMAC part reported, are at most the steps before the run plus the points whose middle the motors passed in it. If the PMAC never comes to the end of what it was sent before the trajectory was sent to its end: when it has stopped in a run, it gave a live and a mid signal for each step of the run, once and in order, and a dead signal at the end of each row, and the step reported is the last of the run; a scan that goes on to Finished without a pause, in however many runs, passed all its points. Without that condition a run ends with points missing and no error.", "quantifier": "all generators, axes, gaps, block sizes, breakpoints and all interleavings of calls, pauses, reports, movement of the motors and updates of pointsScanned", "why_tests_cant": "needs interleavings of the motion with the feeding of blocks; tests use a mock PMAC and a fixed list of updates", "anchors": ["malcolm/modules/scanning/controllers/runnablecontroller.py:430-742", "malcolm/modules/pmac/parts/pmacchildpart.py:356-515", "malcolm/modules/pmac/parts/pmactrajectorypart.py:94-191"]}
{"id": "C108", "title": "A scan uses the one coordinate system that its axes are in, and moves only its axes", "statement": "When the PMAC part is configured without an error and axes of the scan move (those that no static generator has), these are all in one coordinate system (CS), each with a letter of its own; the zero program, the method that moves to the start and the trajectory are all for that CS, the method is that of the number at the end of its port, and the letters moved and those of the trajectory are exactly those of the moving axes; each axis is sent to where its run-up to the first point begins, within its limits. If the axes are not in one CS, configure fails before anything is called. If nothing moves but triggers are wanted, the CS is that of the first motor that is in one and no axis is moved; if none are wanted nothing is called by any hook until the next configure. A run executes only the trajectory built for the steps of the last configure.", "quantifier": "all layouts, generators, axes, trigger modes, histories of configure, run and abort", "why_tests_cant": "the tests use one layout with two motors in one CS", "anchors": ["malcolm/modules/pmac/util.py:27-109", "malcolm/modules/pmac/util.py:301-312", "malcolm/modules/pmac/parts/pmacchildpart.py:211-221", "malcolm/modules/pmac/parts/pmacchildpart.py:295-437"]}
{"id": "C109", "title": "A scan leaves the saved design of a device alone", "statement": "Whatever was done to a manager before, and whatever the detector driver, position labeller, statistics, HDF writer, XMAP, Reframe, trajectory, Odin and Xspress3 parts put to their child blocks in any number of configure, seek and reset calls, with any values coming back: the modified light stays as it was, no part has more or less to report, and saving would write the same file. Every attribute those parts put is an attribute of the block its YAML makes and can be written. Two exceptions are proved: seek of the Odin and Xspress3 writers puts to arrayCounter, which their blocks do not have, and a move of a coordinate system leaves another csMoveTime in the design.", "quantifier": "for all histories of the manager, all lists of calls with all parameters and values, all parts that conform to their class and block", "why_tests_cant": "The parts are tested with mocks that take any attribute; the no_save lists, the block YAMLs and the manager are never put together in a test, and not over arbitrary histories and sequences of calls.", "anchors": ["malcolm/modules/builtin/util.py:178-201", "malcolm/modules/ADCore/parts/hdfwriterpart.py:395-414", "malcolm/modules/ADCore/parts/detectordriverpart.py:105-147", "malcolm/modules/pmac/parts/cspart.py:52-85", "malcolm/modules/ADOdin/parts/odinwriterpart.py:428-446", "malcolm/modules/xspress3/parts/xspresswriterpart.py:439-458"]}
{"id": "C110", "title": "However its points are thinned out, a motion scan takes the time its generator asks for", "statement": "At any moment of a scan driven through the PMAC trajectory, with any output triggers (every point, row gates or none) and any step reports from the controller, the ticks sent so far plus the time waiting in the profile equal the run up, the durations of the points done, the turnarounds between points that are not joined and, when it is there, the tail off, within half a microsecond per profile sent. When all is sent, that is the whole scan. With a sparse profile a straight row of two or more points becomes one entry at the upper bound of its last point with the time of them all, followed by the turnaround.", "quantifier": "all generators, start and end steps, joined/same-velocity relations, turnaround profiles, triggers, profile sizes, batch sizes and sequences of step reports", "why_tests_cant": "Tests compare a few fixed profiles; whether skipped points, batch boundaries and tick rounding lose or double time for some combination of row lengths, batch size and profile size needs an induction over the whole scan.", "anchors": ["malcolm/modules/pmac/parts/pmacchildpart.py:440-515", "malcolm/modules/pmac/parts/pmacchildpart.py:625-762", "malcolm/modules/pmac/parts/pmacchildpart.py:793-957"]}
{"id": "C111", "title": "The points that a thinned out trajectory leaves out are near the line it follows", "statement": "When the PMAC trajectory is thinned out, a row of joined points whose velocities the code sees as the same becomes one line. If the velocities are the same, every bound left out is on that line at its time. If they are only seen as the same by np.isclose from each point to the next, a bound is off the line by at most 2 n (1e-8 + 1e-5 V) t for n points, a velocity of at most V and the time t to get there. No bound independent of n holds: for every distance there is a row seen as straight with a point that far from the line.", "quantifier": "all rows of any number of points, all axes, durations, positions and distances", "why_tests_cant": "The error is invisible between neighbours and grows with the number of points, so it is found by reasoning over rows of any length, not by comparing short profiles.", "anchors": ["malcolm/modules/pmac/util.py:140-185", "malcolm/modules/pmac/parts/pmacchildpart.py:680-762"]}
{"id": "C112", "title": "Every HTTP request gets one reply, and it is the answer its block gave to it", "statement": "Take any history of the REST server: GET and POST requests arriving, their malcolm requests reaching their controllers in any order, functions of methods ending at any time, other clients' requests, changes of the blocks, and the tornado loop doing its work. Every HTTP request is in exactly one place (on its way to its controller, its function running, its response waiting for the loop, or replied to), and no response is left over; so once nothing is on its way, every request has been replied to. The reply to a GET is what there was to read at its path in the block it names ('.' being the server) at one moment after the request and before the reply, or a 500 if there was nothing there or no such block. The reply to a POST is a 500 for a body that is not JSON, an unknown block, or the reason its block refused it; otherwise its parameters were accepted, its function started, and the reply is 200 with what that function returned or 500 with what it raised (or with the error of a result that does not fit the method).", "quantifier": "all sets of blocks, all endpoints and bodies, all interleavings, of any length", "why_tests_cant": "A test sends one request at a time and waits for its reply; that replies are not exchanged or lost when several handlers, threads and the loop interleave is a statement about all interleavings.", "anchors": ["malcolm/modules/web/parts/restfulserverpart.py:16-65", "malcolm/modules/web/controllers/httpservercomms.py:79-88", "malcolm/core/controller.py:124-281", "malcolm/core/process.py:249-254"]}
