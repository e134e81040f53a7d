{
 "claims": [
  {
   "property": "C01",
   "status": "proved",
   "theorems": [
    "C01_accepted_transitions_are_the_graph",
    "C01_published_states_follow_graph",
    "C01_calls_follow_graph",
    "C01_illegal_request_raises",
    "C01_transition_succeeds_iff_edge"
   ],
   "note": "All three state sets; any history of atomic steps by any threads."
  },
  {
   "property": "C02",
   "status": "proved",
   "theorems": [
    "C02_disabled_left_only_by_resetting",
    "C02_failure_lands_in_fault"
   ],
   "note": "Exact cases when already in Fault (old message stays) and when disabled meanwhile are part of the statement."
  },
  {
   "property": "C03",
   "status": "proved",
   "theorems": [
    "C03_writeable_iff_declared_state",
    "C03_state_alarm",
    "C03_before_first_transition_refuted"
   ],
   "note": "Holds after any successful transition; the window between adding a field and the next transition is a finding (_refuted)."
  },
  {
   "property": "C04",
   "status": "proved",
   "theorems": [
    "C04_put_refused",
    "C04_post_refused",
    "C04_put_allowed",
    "C04_post_allowed",
    "C04_only_validated",
    "C04_handle_changes_nothing",
    "C04_end_changes_logs",
    "C04_deep_path_refuted"
   ],
   "note": "Validation of a value is a parameter for attributes, MapMeta.validate for methods. A path longer than the field name is not refused (finding)."
  },
  {
   "property": "C05",
   "status": "proved",
   "theorems": [
    "C05_one_answer",
    "C05_all_answered",
    "C05_own_answer",
    "C05_put_gets_value",
    "C05_post_answer",
    "C05_result_misfit_refuted"
   ],
   "note": "Functions of fields may end in any order; the notifications after the first are in C06-C09."
  },
  {
   "property": "C06",
   "status": "proved",
   "theorems": [
    "C06_replay_is_current",
    "C06_partial_table_refuted"
   ],
   "note": "For every history of groups, changes, subscriptions and paths (not through a dict, tables replaced as a whole). Column-wise table updates: refuted with a witness."
  },
  {
   "property": "C07",
   "status": "proved",
   "theorems": [
    "C07_update_is_current",
    "C07_first_is_current",
    "C07_partial_table_refuted",
    "C07_through_dict_refuted",
    "C07_empty_group_refuted"
   ],
   "note": "Exactly one Update iff a related change (or whole-block subscriber); value current. Refutations: column-wise table updates, paths through a dict, empty groups."
  },
  {
   "property": "C08",
   "status": "proved",
   "theorems": [
    "C08_quiet_while_open",
    "C08_all_at_once",
    "C08_raising_callback_refuted"
   ],
   "note": "Callbacks that do not raise; with a raising callback the later ones are starved (refuted)."
  },
  {
   "property": "C09",
   "status": "proved",
   "theorems": [
    "C09_unsubscribe_returns",
    "C09_silent_afterwards",
    "C09_unknown_is_error",
    "C09_others_unaffected",
    "C09_no_residue",
    "C09_same_key_refuted"
   ],
   "note": "For distinct (callback, id) pairs; a pair subscribed twice leaves the first subscription for ever (refuted)."
  },
  {
   "property": "C10",
   "status": "proved",
   "theorems": [
    "C10_fresh_ids",
    "C10_own_response",
    "C10_once",
    "C10_wait_returns",
    "C10_wait_raises",
    "C10_wait_ends",
    "C10_callback_waits_refuted",
    "C10_swallowed_error_refuted",
    "C10_same_future_twice_refuted"
   ],
   "note": "All histories of requests, responses, stops, callbacks and nested waits. That a wait ends, and returns only results, needs distinct futures and callbacks that do not wait: three refutations show why."
  },
  {
   "property": "C11",
   "status": "proved",
   "theorems": [
    "C11_in_order",
    "C11_stop_aborts",
    "C11_stop_ignored",
    "C11_only_stops",
    "C11_earlier_never"
   ],
   "note": "All histories; sleeps covered by C11_only_stops."
  },
  {
   "property": "C12",
   "status": "proved",
   "theorems": [
    "C12_started",
    "C12_bad_start",
    "C12_registered",
    "C12_returns",
    "C12_raises",
    "C12_stops",
    "C12_timeout",
    "C12_answers",
    "C12_unchecked",
    "C12_stops_finished_refuted",
    "C12_lone_abort_refuted"
   ],
   "note": "All sets of hooks with distinct part names, all completion orders, outcomes and timeouts."
  },
  {
   "property": "C13",
   "status": "proved",
   "theorems": [
    "C13_runs_cover_scan",
    "C13_without_breakpoints",
    "C13_too_many_breakpoints_refused",
    "C13_axisless_dimension_refuted",
    "C13_zero_breakpoint_refuted"
   ],
   "note": "For scans whose dimensions all have axes and positive breakpoints; the two _refuted theorems show those guards are needed (findings)."
  },
  {
   "property": "C14",
   "status": "proved",
   "theorems": [
    "C14_counters_in_order",
    "C14_seek_exact",
    "C14_seek_out_of_run_refuted"
   ],
   "note": "For histories in which a seek during an active run stays inside that run; without that guard it is false (finding)."
  },
  {
   "property": "C15",
   "status": "proved",
   "theorems": [
    "C15_runs_do_whole_scan",
    "C15_pause_resume_neutral",
    "C15_finished_iff_all_done",
    "C15_seek_out_of_run_refuted"
   ],
   "note": "Same guard as C14."
  },
  {
   "property": "C16",
   "status": "proved",
   "theorems": [
    "C16_progress_is_slowest_part",
    "C16_progress_never_goes_back"
   ],
   "note": ""
  },
  {
   "property": "C17",
   "status": "proved",
   "theorems": [
    "C17_validated_is_fixpoint",
    "C17_at_most_ten_rounds",
    "C17_untouched_parameters_kept"
   ],
   "note": ""
  },
  {
   "property": "C18",
   "status": "proved",
   "theorems": [
    "C18_accepted_exactly",
    "C18_result",
    "C18_idempotent"
   ],
   "note": "MapMeta.validate over arbitrary element metas; idempotence assumes each element meta is idempotent (proved for choice, boolean and string in C19)"
  },
  {
   "property": "C19",
   "status": "proved",
   "theorems": [
    "C19_choice_in_choices",
    "C19_choice_accepts",
    "C19_choice_idempotent",
    "C19_choice_default",
    "C19_choice_array",
    "C19_boolean",
    "C19_string",
    "C19_no_choices_refuted",
    "C19_mixed_choices_refuted"
   ],
   "note": "Choices of one kind (strings, or one Enum) and at least one choice; the two limits are refuted by witness"
  },
  {
   "property": "C20",
   "status": "proved",
   "theorems": [
    "C20_accepted_is_rectangular",
    "C20_idempotent",
    "C20_rows_round_trip",
    "C20_from_rows_round_trip",
    "C20_single_row",
    "C20_short_row_refuted",
    "C20_no_columns_refuted",
    "C20_row",
    "C20_no_row"
   ],
   "note": "Column metas are parameters; from_rows on short rows and tables without columns are findings"
  },
  {
   "property": "C21",
   "status": "proved",
   "theorems": [
    "C21_port_tag_round_trip",
    "C21_with_source_port",
    "C21_without_tags",
    "C21_config_tag",
    "C21_colon_refuted",
    "C21_newline_refuted"
   ],
   "note": "Values without colon or newline as stated; colon and newline are refuted by witness"
  },
  {
   "property": "C22",
   "status": "proved",
   "theorems": [
    "C22_restored",
    "C22_restored_exactly",
    "C22_same_source_refuted",
    "C22_same_file_refuted"
   ],
   "note": "For every history before the save and between save and load (not writing that file). A child takes a value its meta makes of the saved one. Exports with the same source lose all but one, and names with .json inside share a file (findings)."
  },
  {
   "property": "C23",
   "status": "partial",
   "theorems": [
    "C23_exact",
    "C23_exact_after_save",
    "C23_save_cleans",
    "C23_never_missed",
    "C23_stale_refuted",
    "C23_settled_elsewhere_refuted"
   ],
   "note": "Exact from the start and after a save at which no part has a message. After other saves nothing is missed, but the light can be lit though nothing differs (stale messages, refuted); a child settling elsewhere during a load is not shown (refuted)."
  },
  {
   "property": "C24",
   "status": "proved",
   "theorems": [
    "C24_only_named_rows",
    "C24_one_row_each"
   ],
   "note": "At any time in any history of puts, saves and loads."
  },
  {
   "property": "C25",
   "status": "proved",
   "theorems": [
    "C25_controllers",
    "C25_mris_distinct",
    "C25_add_controllers",
    "C25_added_found",
    "C25_names_distinct",
    "C25_first_stays",
    "C25_add_field",
    "C25_add_part",
    "C25_camel",
    "C25_exports_distinct",
    "C25_half_registered_refuted",
    "C25_half_part_refuted",
    "C25_export_replaces_refuted",
    "C25_same_export_refuted",
    "C25_newline_refuted"
   ],
   "note": "Holds for mris, parts and registered fields; exports of a manager are only distinct if the user makes them so (findings)."
  },
  {
   "property": "C26",
   "status": "proved",
   "theorems": [
    "C26_exact_number_of_pulses",
    "C26_zero_is_continuous",
    "C26_multiple_of_4096_refuted"
   ],
   "note": "Holds for counts not a multiple of 4096; for positive multiples a never ending row is added (finding)."
  },
  {
   "property": "C27",
   "status": "proved",
   "theorems": [
    "C27_tables_replay_source",
    "C27_durations_add_up",
    "C27_writes_in_order",
    "C27_played_in_order",
    "C27_split_duration_refuted"
   ],
   "note": "For sources that end in the continuous row, as get_rows always does (see C28). _duration left in split rows is wrong but unused (finding)."
  },
  {
   "property": "C28",
   "status": "proved",
   "theorems": [
    "C28_one_live_pulse_per_point",
    "C28_tables_one_pulse_per_point",
    "C28_run_of_4096_refuted"
   ],
   "note": "For time based, row triggered and position compare scans. Never ending row if 4096 equal points are grouped (finding)."
  },
  {
   "property": "C29",
   "status": "proved",
   "theorems": [
    "C29_profile_is_what_was_asked",
    "C29_arrays_aligned",
    "C29_total_time_kept",
    "C29_long_move_is_straight"
   ],
   "note": "any sequence of add, amend and write; floats as exact rationals"
  },
  {
   "property": "C30",
   "status": "proved",
   "theorems": [
    "C30_ticks_do_not_drift",
    "C30_each_tick_close",
    "C30_blocks"
   ],
   "note": "half a tick, at every prefix of a block"
  },
  {
   "property": "C31",
   "status": "proved",
   "theorems": [
    "C31_mapping_sound",
    "C31_mapping_exactly_when_possible"
   ],
   "note": ""
  },
  {
   "property": "C32",
   "status": "proved",
   "theorems": [
    "C32_table_roundtrip",
    "C32_signed_narrow_refuted",
    "C32_top_bit_32_refuted"
   ],
   "note": "round trip for every layout of disjoint fields within words and every fitting table; signed fields of other widths than 8/16/32 and a top bit at a multiple of 32 are refuted"
  },
  {
   "property": "C33",
   "status": "proved",
   "theorems": [
    "C33_answers_in_order",
    "C33_stays_alive",
    "C33_packets_do_not_matter",
    "C33_split_character_refuted",
    "C33_undecodable_ends"
   ],
   "note": "for packets of whole UTF-8 characters (all cuts if the text is ASCII); a multi-byte character cut across packets kills the receive thread (refuted)"
  },
  {
   "property": "C34",
   "status": "proved",
   "theorems": [
    "C34_settles",
    "C34_every_report_visible",
    "C34_two_reports_refuted"
   ],
   "note": "with at most one report per bit per poll; two reports in one poll refuted"
  },
  {
   "property": "C35",
   "status": "proved",
   "theorems": [
    "C35_never_writes",
    "C35_validators",
    "C35_answered",
    "C35_ipv6_unanswered_refuted",
    "C35_id_not_freed_refuted"
   ],
   "note": "The second clause holds for clients with an IPv4 address (or ::1); for another IPv6 client on_message raises before its try and nothing is answered (refuted). Ids are not freed by Unsubscribe or by a refused Subscribe (refuted)."
  },
  {
   "property": "C36",
   "status": "proved",
   "theorems": [
    "C36_own_id",
    "C36_once",
    "C36_answered",
    "C36_none_left_pending",
    "C36_fault_ends",
    "C36_written_when_sent",
    "C36_sent_while_down_refuted",
    "C36_reset_does_not_wait_refuted"
   ],
   "note": "Holds for every request sent before the fault is handled. A request sent later, while down, is never written nor answered until another disconnection (refuted); reset after a loss does not wait for the new connection (refuted)."
  },
  {
   "property": "C37",
   "status": "proved",
   "theorems": [
    "C37_id_is_step",
    "C37_ids_never_reused",
    "C37_labels_agree",
    "C37_loads_ahead",
    "C37_armed_twice_refuted"
   ],
   "note": "For every polite history of a scan (Scan_Model) and both kinds of camera: each id made + offset = the step; ids of a run are above all ids of runs asked for before; driver and labeller wait for the same id and give every id the same step. 'Armed for' is read as the ids the camera makes; read as numImages it is refuted (C37_armed_twice_refuted): a hardware triggered camera is armed for the whole rest of the scan each time."
  },
  {
   "property": "C38",
   "status": "proved",
   "theorems": [
    "C38_chosen",
    "C38_guessed_duration",
    "C38_both_given",
    "C38_duration_given",
    "C38_exposure_given",
    "C38_neither_given",
    "C38_guessed_frames",
    "C38_short_frame_refuted",
    "C38_several_frames_refuted"
   ],
   "note": "Also the detector's validate (exposure part and driver part) for one frame per step, and the frames guessed from an exposure. 'Never exceeds what the frame leaves' is false where the frame has no room for the minimum exposure (refuted) and for several frames with neither duration nor exposure given (refuted)."
  },
  {
   "property": "C39",
   "status": "proved",
   "theorems": [
    "C39_health_is_worst_latest_report"
   ],
   "note": ""
  },
  {
   "property": "C40",
   "status": "proved",
   "theorems": [
    "C40_accounts",
    "C40_goes_on",
    "C40_stopped",
    "C40_outcome",
    "C40_load",
    "C40_negative_repeats_refuted",
    "C40_same_name_refuted",
    "C40_failed_load_refuted",
    "C40_abort_refuted"
   ],
   "note": "For files of scans with distinct names and no negative repeats; each of these conditions is needed (refuted with witnesses)."
  },
  {
   "property": "C41",
   "status": "proved",
   "theorems": [
    "C41_blind_per_turnaround_one_batch",
    "C41_stale_last_point_refuted"
   ],
   "note": "Holds within one batch of points; false beyond (finding)."
  },
  {
   "property": "C42",
   "status": "proved",
   "theorems": [
    "C42_every_point_in_order",
    "C42_signals",
    "C42_steps_reported",
    "C42_reports_finish_it",
    "C42_no_error"
   ],
   "note": "joined, turnaround profiles and isclose are parameters"
  },
  {
   "property": "C43",
   "status": "proved",
   "theorems": [
    "C43_first_decides",
    "C43_no_match",
    "C43_equals"
   ],
   "note": "All conditions and sequences of values."
  },
  {
   "property": "C44",
   "status": "proved",
   "theorems": [
    "C44_callbacks",
    "C44_unsubscribed_once"
   ],
   "note": "All histories."
  },
  {
   "property": "C45",
   "status": "proved",
   "theorems": [
    "C45_logs"
   ],
   "note": "For a method still in its block when it ends, whose result fits its meta; otherwise C05_result_misfit_refuted."
  },
  {
   "property": "C46",
   "status": "proved",
   "theorems": [
    "C46_hiding_cuts",
    "C46_initial_visibility_refuted",
    "C46_empty_name_refuted"
   ],
   "note": "For parts without initial_visibility; with it, connections made later stay (finding). Port tables fixed; distinct port names and connected values."
  },
  {
   "property": "C47",
   "status": "proved",
   "theorems": [
    "C47_dead_unsubscribes_once"
   ],
   "note": "Blocks with a non-empty mri that the server knows."
  },
  {
   "property": "C48",
   "status": "proved",
   "theorems": [
    "C48_one_frame",
    "C48_frames_without_seek",
    "C48_seek_refuted",
    "C48_breakpoints_refuted",
    "C48_no_axes_refuted"
   ],
   "note": "Simulation between two copies of Scan_Model. With several frames per step a seek and breakpoints are passed to the child uncounted in frames, and a scan moving no axes is refused: refuted with witnesses."
  },
  {
   "property": "C49",
   "status": "proved",
   "theorems": [
    "C49_fields",
    "C49_scaled",
    "C49_bits",
    "C49_failed",
    "C49_sent",
    "C49_words",
    "C49_stale_value_refuted",
    "C49_word_shared_refuted",
    "C49_word_mates_refuted",
    "C49_unknown_row_refuted"
   ],
   "note": "Row-by-row refinement of the column bookkeeping for every history. The _refuted theorems record where the table and the device disagree: a rescaled row shows its old value until the next report, bits of one capture word are shown captured apart, naming one bit of a word turns off the others, unknown rows are refused only when capture changes."
  },
  {
   "property": "C50",
   "status": "proved",
   "theorems": [
    "C50_located",
    "C50_one_place",
    "C50_outside",
    "C50_announced",
    "C50_set",
    "C50_fields",
    "C50_accepted",
    "C50_fuel",
    "C50_failed_set_refuted",
    "C50_borrowed_refuted",
    "C50_refused_name_refuted"
   ],
   "note": "Invariant of the object graph over all runs of operations that do not raise and do not borrow an attached Model for a detached parent; three ways in which it is lost are proved as findings"
  },
  {
   "property": "C51",
   "status": "proved",
   "theorems": [
    "C51_written",
    "C51_additional",
    "C51_additional_announced",
    "C51_announced",
    "C51_once",
    "C51_nexus",
    "C51_units",
    "C51_twice_refuted",
    "C51_same_name_refuted",
    "C51_rank_refuted"
   ],
   "note": "refuted: rows with one dataset name give a path twice; attribute named as the detector is announced twice under a name; announced rank of an attribute is not the number of axes of its group"
  },
  {
   "property": "C52",
   "status": "proved",
   "theorems": [
    "C52_dimensions",
    "C52_refused",
    "C52_points"
   ],
   "note": ""
  },
  {
   "property": "C53",
   "status": "proved",
   "theorems": [
    "C53_panda",
    "C53_refused",
    "C53_driver",
    "C53_once",
    "C53_unchecked_refuted"
   ],
   "note": "refuted: name not checked when only the extremes are captured"
  },
  {
   "property": "C54",
   "status": "proved",
   "theorems": [
    "C54_dealt",
    "C54_blocks_of_one",
    "C54_total",
    "C54_right_iff",
    "C54_none",
    "C54_blocks_refuted"
   ],
   "note": "Right exactly if the frames over whole rounds are fewer than the files; otherwise each file is given too many, by a known number (finding)."
  },
  {
   "property": "C55",
   "status": "proved",
   "theorems": [
    "C55_odin",
    "C55_snake",
    "C55_xspress",
    "C55_uneven",
    "C55_raw_refuted",
    "C55_secondary_refuted",
    "C55_xspress_uid_refuted",
    "C55_few_channels_refuted",
    "C55_template",
    "C55_extension",
    "C55_no_extension"
   ],
   "note": "For all but the announced datasets named in the refuted theorems (findings). HDF5/vdsgen output is modelled as a map of paths to nodes."
  },
  {
   "property": "C56",
   "status": "proved",
   "theorems": [
    "C56_done",
    "C56_reports",
    "C56_bounds",
    "C56_stalled",
    "C56_pairs_refuted",
    "C56_passed_refuted"
   ],
   "note": "Reports for one frame to a step; with several FR/FP pairs the Xspress part reports frames of all pairs as steps (finding). Readback assumed to go to zero at configure."
  },
  {
   "property": "C57",
   "status": "proved",
   "theorems": [
    "C57_aligned",
    "C57_loss",
    "C57_again",
    "C57_guess",
    "C57_guess_speed",
    "C57_tweaked_once",
    "C57_shorter_refuted",
    "C57_guess_down_refuted"
   ],
   "note": "floats are exact rationals. Refuted: the duration can be shortened (5000 Hz, 0.1 s); a first step downwards is guessed one microsecond"
  },
  {
   "property": "C58",
   "status": "proved",
   "theorems": [
    "C58_velocity",
    "C58_refused",
    "C58_start",
    "C58_run_up_time",
    "C58_slowest",
    "C58_run_up_refuted",
    "C58_tail"
   ],
   "note": "floats are exact rationals. Refuted: an axis faster than the slowest does not arrive with its velocity if it accelerates over the common run-up time"
  },
  {
   "property": "C59",
   "status": "proved",
   "theorems": [
    "C59_positions",
    "C59_motion",
    "C59_two_rounds",
    "C59_same_time",
    "C59_gap",
    "C59_velocities",
    "C59_close_refuted",
    "C59_velocities_refuted"
   ],
   "note": "the external velocity_profile is any function with the contract of Turn_Spec (library), shown to be inhabited; C59_gap needs node times apart by more than np.isclose and the needed time not just above the minimum. Refuted without that (IndexError); refuted: for accelerating points entry and exit velocity are swapped"
  },
  {
   "property": "C60",
   "status": "proved",
   "theorems": [
    "C60_blind",
    "C60_refused",
    "C60_right_way",
    "C60_same",
    "C60_between_refuted",
    "C60_unseen_refuted"
   ],
   "note": "Refuted: a turn between two nodes is not waited for; an axis unseen by the PandA that is the slowest makes the blind time too short"
  },
  {
   "property": "C61",
   "status": "proved",
   "theorems": [
    "C61_counts",
    "C61_nearest",
    "C61_most",
    "C61_refused",
    "C61_wired",
    "C61_unwired"
   ],
   "note": "floats are exact rationals"
  },
  {
   "property": "C62",
   "status": "proved",
   "theorems": [
    "C62_in_step",
    "C62_whole_recovers",
    "C62_added_refuted",
    "C62_removed_refuted",
    "C62_column_refuted",
    "C62_rest_lost_refuted"
   ],
   "note": "In step with the remote block for all histories of followable changes, and after a change of the whole block; four ways it gets out of step are shown with witnesses."
  },
  {
   "property": "C63",
   "status": "proved",
   "theorems": [
    "C63_in_step",
    "C63_tags_refuted",
    "C63_replaced_refuted",
    "C63_column_refuted"
   ],
   "note": "In step for all histories of changes inside the field; three ways it gets out of step are shown with witnesses."
  },
  {
   "property": "C64",
   "status": "proved",
   "theorems": [
    "C64_filled",
    "C64_order",
    "C64_untouched",
    "C64_lists",
    "C64_places",
    "C64_nested_refuted",
    "C64_mapping_refuted"
   ],
   "note": "Sequential replacement equals simultaneous replacement for all texts and plain values; two limits shown with witnesses."
  },
  {
   "property": "C65",
   "status": "proved",
   "theorems": [
    "C65_argument",
    "C65_define",
    "C65_arguments_checked",
    "C65_once",
    "C65_made",
    "C65_parts",
    "C65_children_first",
    "C65_default_refuted",
    "C65_signature"
   ],
   "note": "Precedence, argument check, exactly the written blocks and parts, order; a default with a reference stays unreplaced (witness)."
  },
  {
   "property": "C66",
   "status": "proved",
   "theorems": [
    "C66_accepted",
    "C66_announced",
    "C66_made",
    "C66_rest",
    "C66_first_row_refuted",
    "C66_lost_refuted",
    "C66_port_refuted"
   ],
   "note": "Layout names are taken to be distinct. The refuted theorems record the wrong behaviour."
  },
  {
   "property": "C67",
   "status": "proved",
   "theorems": [
    "C67_links",
    "C67_min_max",
    "C67_variables",
    "C67_bad_variable",
    "C67_program",
    "C67_not_own",
    "C67_own_refuted",
    "C67_default_suffix",
    "C67_default_suffix_refuted"
   ],
   "note": "Values of variables are kept as text; their conversion to floats and the shapes of datasets are not modelled."
  },
  {
   "property": "C68",
   "status": "proved",
   "theorems": [
    "C68_exposures",
    "C68_validate",
    "C68_cycles",
    "C68_joined",
    "C68_resumed",
    "C68_resumed_refuted",
    "C68_progress_refuted"
   ],
   "note": "Proved for all tables, generators and step counts. Refuted: completed_steps is not doubled, so a resumed scan drives the wrong points; progress is reported in doubled steps. Floats are rationals; the points of the static/line generator are taken from scanpointgenerator's documented behaviour."
  },
  {
   "property": "C69",
   "status": "proved",
   "theorems": [
    "C69_accepted",
    "C69_refused",
    "C69_written",
    "C69_positions_refuted",
    "C69_append_refuted",
    "C69_refused_build_refuted"
   ],
   "note": "Proved for all sequences. Refuted: the number of positions is not compared with the number of points; an append without an axis of the build sends its old positions again, and one with an additional axis is ignored; a refused build resets the count although the old profile is still in the PMAC. Assumed: what the driver does on buildProfile and appendProfile; puts other than the CS port do not fail."
  },
  {
   "property": "C70",
   "status": "proved",
   "theorems": [
    "C70_choices",
    "C70_shown",
    "C70_put",
    "C70_link",
    "C70_first_port_fails",
    "C70_none_refuted",
    "C70_out",
    "C70_zero_refuted"
   ],
   "note": "Proved for all ports and updates. Findings: on connection and after a put, port index 0 is not taken as no CS, so that a named first port with an axis letter raises ValueError; a motor taken out of its CS is shown with an alarm; number 0 of a compound motor is shown as Z."
  },
  {
   "property": "C71",
   "status": "proved",
   "theorems": [
    "C71_number",
    "C71_number_refuted",
    "C71_move",
    "C71_deferred_refuted"
   ],
   "note": "Proved for all ports and demands. Refuted for n >= 10: CS part 1 accepts the port of CS 11; and a demand that is not received leaves the moves deferred."
  },
  {
   "property": "C72",
   "status": "proved",
   "theorems": [
    "C72_fields",
    "C72_only",
    "C72_names",
    "C72_label",
    "C72_muxes",
    "C72_mux_choices",
    "C72_apart",
    "C72_made",
    "C72_unique_refuted",
    "C72_write_time_refuted",
    "C72_part_name",
    "C72_upper"
   ],
   "note": "The refuted theorems are findings: names that are not snake case may clash (OUT_1 and OUT1) and a write of subtype time is not known; the whole block is then not made."
  },
  {
   "property": "C73",
   "status": "proved",
   "theorems": [
    "C73_shown",
    "C73_label",
    "C73_others",
    "C73_health",
    "C73_link",
    "C73_refused_refuted",
    "C73_routed",
    "C73_route_total",
    "C73_converges",
    "C73_one_poll",
    "C73_race_refuted"
   ],
   "note": "C73_shown etc. are for a batch in which no value is refused, C73_refused_refuted shows what happens else; C73_converges is for runs without the race shown in C73_race_refuted."
  },
  {
   "property": "C74",
   "status": "proved",
   "theorems": [
    "C74_first",
    "C74_next",
    "C74_idle"
   ],
   "note": "Times are rationals and the sleep is exact."
  },
  {
   "property": "C75",
   "status": "proved",
   "theorems": [
    "C75_polled",
    "C75_recovers",
    "C75_disabled",
    "C75_reset_refuted",
    "C75_blocks_refuted"
   ],
   "note": "careful says which sequences; the refuted theorems show that without it the claim is false."
  },
  {
   "property": "C76",
   "status": "proved",
   "theorems": [
    "C76_published",
    "C76_told",
    "C76_refused",
    "C76_cycle_refuted",
    "C76_endless_refuted",
    "C76_half_added_refuted"
   ],
   "note": "Depth of the tree below the recursion limit. Refuted without the rank condition; C76_half_added_refuted shows what a refused add leaves behind."
  },
  {
   "property": "C77",
   "status": "proved",
   "theorems": [
    "C77_all_ended",
    "C77_returns",
    "C77_wait_result",
    "C77_wait_ends",
    "C77_cleared_refuted",
    "C77_stuck_refuted",
    "C77_two_waiters_refuted"
   ],
   "note": "calm states that the list is not cleared while stop is in its loop; without it refuted."
  },
  {
   "property": "C78",
   "status": "proved",
   "theorems": [
    "C78_table",
    "C78_detectors",
    "C78_fits",
    "C78_ten_refuted",
    "C78_generator_refuted",
    "C78_multiplied",
    "C78_longest"
   ],
   "note": "C78_table for any children that settle; C78_detectors for children of ExposureDeadtimePart and DetectorDriverPart and children without an exposure. Refuted for ten detectors, and for a duration to be found with several frames in a step."
  },
  {
   "property": "C79",
   "status": "proved",
   "theorems": [
    "C79_accepted",
    "C79_no_slash",
    "C79_path",
    "C79_injective",
    "C79_xml",
    "C79_xml_apart",
    "C79_again_refuted",
    "C79_sibling_refuted",
    "C79_xml_shared_refuted"
   ],
   "note": "translate_filepath and make_xml_filename for all strings; the three refuted theorems record findings"
  },
  {
   "property": "C80",
   "status": "proved",
   "theorems": [
    "C80_accepted",
    "C80_pulses",
    "C80_disjoint",
    "C80_disabled",
    "C80_validated",
    "C80_width_refuted",
    "C80_crossed_refuted",
    "C80_asked"
   ],
   "note": "times as exact rationals; C80_accepted assumes that no source starts with a dot"
  },
  {
   "property": "C81",
   "status": "proved",
   "theorems": [
    "C81_setup",
    "C81_kept",
    "C81_later",
    "C81_later_refuted",
    "C81_andor",
    "C81_transfer",
    "C81_transfer_period",
    "C81_validated_less",
    "C81_short_refuted",
    "C81_andor_later_refuted",
    "C81_reframe",
    "C81_reframe_open",
    "C81_reframe_refuted",
    "C81_tetramm",
    "C81_xmap",
    "C81_xmap_refuted",
    "C81_andor_open",
    "C81_reframe_other"
   ],
   "note": "floats as exact rationals; the refuted theorems, C81_later and C81_validated_less record findings"
  },
  {
   "property": "C82",
   "status": "proved",
   "theorems": [
    "C82_agree",
    "C82_device",
    "C82_put",
    "C82_hidden_refuted"
   ],
   "note": "C82_hidden_refuted is a finding: the place of a hidden block is lost as soon as the device reports a layout. Coordinates are integers and the device is taken to keep what it is given."
  },
  {
   "property": "C83",
   "status": "proved",
   "theorems": [
    "C83_found",
    "C83_distinct",
    "C83_delivered",
    "C83_unknown",
    "C83_busses",
    "C83_digit_refuted"
   ],
   "note": "C83_digit_refuted is a finding: with roots A and A1 (one block each) the label of A, reported as LABEL_A1, reaches A1."
  },
  {
   "property": "C84",
   "status": "proved",
   "theorems": [
    "C84_round",
    "C84_accepted",
    "C84_item",
    "C84_labels"
   ],
   "note": "induction over the tree of a value; p4p is modelled as trees"
  },
  {
   "property": "C85",
   "status": "proved",
   "theorems": [
    "C85_copy",
    "C85_open",
    "C85_closed",
    "C85_again",
    "C85_fewer_refuted"
   ],
   "note": "invariant over all histories; C85_fewer_refuted is a finding"
  },
  {
   "property": "C86",
   "status": "proved",
   "theorems": [
    "C86_put",
    "C86_put_field",
    "C86_rpc",
    "C86_call",
    "C86_return",
    "C86_return_unpacked",
    "C86_unpacked_refuted",
    "C86_channel",
    "C86_connect",
    "C86_shared",
    "C86_unpublished"
   ],
   "note": "exact conditions; C86_unpacked_refuted is a finding"
  },
  {
   "property": "C87",
   "status": "proved",
   "theorems": [
    "C87_follow",
    "C87_lost",
    "C87_synced",
    "C87_elements_refuted",
    "C87_exports_refuted",
    "C87_turns"
   ],
   "note": "Values as in C62; p4p itself external. Two findings: C87_elements_refuted, C87_exports_refuted."
  },
  {
   "property": "C88",
   "status": "proved",
   "theorems": [
    "C88_true",
    "C88_gates",
    "C88_not"
   ],
   "note": "FUNC as an integer, output = bit of FUNC at the place of the inputs, A highest."
  },
  {
   "property": "C89",
   "status": "proved",
   "theorems": [
    "C89_rate",
    "C89_one_refuted",
    "C89_shown",
    "C89_choice",
    "C89_action_good",
    "C89_action_returns",
    "C89_action_fails"
   ],
   "note": "One update per min_delta is refuted: two per min_delta for every n."
  },
  {
   "property": "C90",
   "status": "proved",
   "theorems": [
    "C90_columns",
    "C90_alarm_stays",
    "C90_alarm_refuted",
    "C90_disconnected_refuted",
    "C90_never_disconnected"
   ],
   "note": "Alarm of now and disconnection are refuted."
  },
  {
   "property": "C91",
   "status": "proved",
   "theorems": [
    "C91_required",
    "C91_type",
    "C91_elements",
    "C91_has_default",
    "C91_default",
    "C91_fits",
    "C91_latest",
    "C91_both",
    "C91_accepts",
    "C91_args",
    "C91_reached",
    "C91_all_reached_refuted",
    "C91_own_default_refuted",
    "C91_detectors",
    "C91_visible",
    "C91_enabled"
   ],
   "note": "That a part gets the default of its own function, and that one of None is taken, are refuted."
  },
  {
   "property": "C92",
   "status": "proved",
   "theorems": [
    "C92_unrolled",
    "C92_settles",
    "C92_refused",
    "C92_allowed",
    "C92_runs",
    "C92_same_runs",
    "C92_hidden"
   ],
   "note": "Excluders other than squashing ones are not modelled; the dimensions of a CompoundGenerator (scanpointgenerator, external) are specified in Dmul_Props; the other parts only change the duration."
  },
  {
   "property": "C93",
   "status": "proved",
   "theorems": [
    "C93_graph",
    "C93_quiet",
    "C93_closed",
    "C93_armed_refuted",
    "C93_fault_refuted",
    "C93_early_abort_refuted",
    "C93_hung_run_refuted",
    "C93_slow_refuted",
    "C93_seek_back_refuted",
    "C93_two_clients_refuted",
    "C93_stopped",
    "C93_answered",
    "C93_alone_refuted"
   ],
   "note": "Thread interleaving model of RunnableController with an AttributePreRunPart: quiet and closed proved for all interleavings of a considerate use (one interrupting client, no timed out wait, no seek back within a run); each restriction is shown to be needed by a refutation."
  },
  {
   "property": "C94",
   "status": "proved",
   "theorems": [
    "C94_watched",
    "C94_ports",
    "C94_order",
    "C94_back_refuted",
    "C94_total",
    "C94_choices",
    "C94_shows",
    "C94_failed_load_refuted"
   ],
   "note": "Two findings: a config field that leaves and comes back is never watched again; a failed load leaves exports in the table that the block does not have."
  },
  {
   "property": "C95",
   "status": "proved",
   "theorems": [
    "C95_modules",
    "C95_paths",
    "C95_directory",
    "C95_no_directory",
    "C95_directory_refuted",
    "C95_version",
    "C95_status",
    "C95_status_refuted",
    "C95_procserv_refuted",
    "C95_iocs",
    "C95_iocs_refuted"
   ],
   "note": "Ioc_Model, Ioc_Props. The loop that replaces references in place is shown equal to full expansion for every order of lines, by an invariant on the depth of what a value stands for."
  },
  {
   "property": "C96",
   "status": "proved",
   "theorems": [
    "C96_blocks",
    "C96_shut",
    "C96_armed",
    "C96_ran",
    "C96_finished_refuted",
    "C96_restart_refuted"
   ],
   "note": "SeqT_Model, SeqT_Props. The histories allowed are more than the states of the block allow. The design of the PandA is taken not to change during a history."
  },
  {
   "property": "C97",
   "status": "proved",
   "theorems": [
    "C97_ids",
    "C97_reader",
    "C97_closed",
    "C97_run",
    "C97_progress",
    "C97_whole",
    "C97_datasets",
    "C97_table",
    "C97_resume"
   ],
   "note": "FileWritePart and DatasetTablePart (Demo_Model), over every history of hooks; h5py datasets are shapes and contents, a reader sees what was last flushed"
  },
  {
   "property": "C98",
   "status": "proved",
   "theorems": [
    "C98_move",
    "C98_move_refuted",
    "C98_point",
    "C98_run",
    "C98_order_refuted",
    "C98_paused_refuted",
    "C98_still"
   ],
   "note": "CounterMovePart and MotionChildPart for one axis (Demo_Model), on exact rationals; findings recorded as refuted"
  },
  {
   "property": "C99",
   "status": "proved",
   "theorems": [
    "C99_current",
    "C99_known",
    "C99_viewable",
    "C99_held",
    "C99_reaches",
    "C99_async",
    "C99_puts",
    "C99_puts_stop",
    "C99_hasattr",
    "C99_args",
    "C99_args_dropped",
    "C99_args_refuted",
    "C99_context",
    "C99_no_context",
    "C99_endpoints",
    "C99_item_refuted",
    "C99_wrapped",
    "C99_stale_refuted",
    "C99_async_refuted",
    "C99_mri_refuted",
    "C99_reserved_refuted",
    "C99_shared_refuted",
    "C99_meta",
    "C99_post"
   ],
   "note": "Findings: item access on a view returns a KeyError instead of raising it; positional arguments beyond those a method takes are dropped; put_attribute_values with an unknown name raises KeyError (its own assertion can never fail) after the items before it were put; a held view of a replaced field shows the old value; fields called mri, typeid, path or notifier break the block or its views; a model refused because it is in use leaves a block of which no view can be made."
  },
  {
   "property": "C100",
   "status": "proved",
   "theorems": [
    "C100_running",
    "C100_configured",
    "C100_ready",
    "C100_one_file",
    "C100_closed",
    "C100_position_first",
    "C100_names",
    "C100_open_refuted",
    "C100_xml_refuted",
    "C100_names_refuted"
   ],
   "note": "C100_open_refuted, C100_xml_refuted and C100_names_refuted are findings: a configure that raises while writing the demand positions leaves that file open, a reset that raises after removing the layout leaves its name in the plugin, and mris that differ only in : and _ share a layout file."
  },
  {
   "property": "C101",
   "status": "proved",
   "theorems": [
    "C101_stalled",
    "C101_finished",
    "C101_broken",
    "C101_flushes",
    "C101_steady",
    "C101_first",
    "C101_after_first",
    "C101_resume_refuted"
   ],
   "note": "C101_resume_refuted is a finding: after a pause the wait for the first array is not made again, so a resumed run whose first frame is late is said to be stalled."
  },
  {
   "property": "C102",
   "status": "proved",
   "theorems": [
    "C102_read",
    "C102_taken",
    "C102_table",
    "C102_stats",
    "C102_layout",
    "C102_in_force",
    "C102_reset",
    "C102_loaded",
    "C102_no_file",
    "C102_any_text_refuted"
   ],
   "note": "C102_any_text_refuted: a control character in a description is taken by the table and gives a file that no reader takes."
  },
  {
   "property": "C103",
   "status": "proved",
   "theorems": [
    "C103_every_trigger",
    "C103_over",
    "C103_idle",
    "C103_starts",
    "C103_ids"
   ],
   "note": ""
  },
  {
   "property": "C104",
   "status": "proved",
   "theorems": [
    "C104_blocks",
    "C104_table",
    "C104_bits",
    "C104_changes",
    "C104_sets",
    "C104_answers",
    "C104_set_table",
    "C104_any_value_refuted"
   ],
   "note": "The server of the specification is written from the protocol of PandABlocks; queues and sockets are C33. Finding: a value with a newline injects a command (C104_any_value_refuted)."
  },
  {
   "property": "C105",
   "status": "proved",
   "theorems": [
    "C105_no_trigger_missed",
    "C105_run",
    "C105_rest",
    "C105_all_steps"
   ],
   "note": "composition of Scan_Model and Arm_Model; hooks that fail and a pause in the POSTRUN stage are left out"
  },
  {
   "property": "C106",
   "status": "proved",
   "theorems": [
    "C106_run",
    "C106_finished",
    "C106_completed",
    "C106_all_steps",
    "C106_pause_refuted",
    "C106_early_refuted"
   ],
   "note": "composition of Scan_Model, Arm_Model and Count_Model with frames in flight; what fails without the two conditions is proved as refuted"
  },
  {
   "property": "C107",
   "status": "proved",
   "theorems": [
    "C107_not_ahead",
    "C107_run",
    "C107_all_points",
    "C107_dry_refuted"
   ],
   "note": "C107_dry_refuted shows that the condition that the PMAC is fed in time is needed"
  },
  {
   "property": "C108",
   "status": "proved",
   "theorems": [
    "C108_one_cs",
    "C108_refused",
    "C108_triggers_only",
    "C108_not_taking_part",
    "C108_run",
    "C108_triggers_only_refuted"
   ],
   "note": "C108_triggers_only_refuted: a layout on which a scan of triggers only can not be configured"
  },
  {
   "property": "C109",
   "status": "proved",
   "theorems": [
    "C109_known",
    "C109_seek_refuted",
    "C109_seek_fails",
    "C109_not_saved",
    "C109_scan_keeps_design",
    "C109_moves_change_two",
    "C109_cs_refuted"
   ],
   "note": "Holds for all calls but those of coordinate systems; what is false of the code is stated by the two refuted theorems (seek of the Odin and Xspress3 writers, move of a coordinate system)."
  },
  {
   "property": "C110",
   "status": "proved",
   "theorems": [
    "C110_scan_time",
    "C110_whole_scan_time",
    "C110_straight_row"
   ],
   "note": "Time account of a PMAC scan in Pmac_Model, in sparse and in full profiles; the joined, same-velocity and turnaround functions are arbitrary parameters; floats are exact rationals."
  },
  {
   "property": "C111",
   "status": "proved",
   "theorems": [
    "C111_near_the_line",
    "C111_on_the_line",
    "C111_bent_refuted"
   ],
   "note": "The two tests of pmac/util.py for neighbours, put into the sparse profile of C110_straight_row. C111_bent_refuted is the finding that the error is not bounded whatever the number of points."
  },
  {
   "property": "C112",
   "status": "proved",
   "theorems": [
    "C112_path",
    "C112_one_reply",
    "C112_final",
    "C112_all_replied",
    "C112_can_finish",
    "C112_get",
    "C112_post"
   ],
   "note": "Rest_Model on top of Req_Model (what a block does with a request). Left out: bodies that are JSON but not an object, failures of json_encode, the words of the status line; the set of blocks is fixed."
  }
 ]
}