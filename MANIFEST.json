{
 "claims": [
  {
   "property": "C01",
   "status": "proved",
   "theorems": [
    "C01_laymine_correct"
   ],
   "note": ""
  },
  {
   "property": "C02",
   "status": "partial",
   "theorems": [
    "C02_laymine_op_correct_partial",
    "C02_laymine_op_thin_never_returns",
    "C02_laymine_op_refuted"
   ],
   "note": "proved for boards at least 2x2; on boards one cell wide the code panics (areaOp is computed as if both neighbours existed), proved for every such board"
  },
  {
   "property": "C03",
   "status": "proved",
   "theorems": [
    "C03_cal_board_numbers_correct"
   ],
   "note": ""
  },
  {
   "property": "C04",
   "status": "proved",
   "theorems": [
    "C04_shuffle_permutes",
    "C04_random_int_in_range",
    "C04_shuffle_every_order",
    "C04_random_int_uniform"
   ],
   "note": ""
  },
  {
   "property": "C05",
   "status": "proved",
   "theorems": [
    "C05_cal_op_counts_openings",
    "C05_components_unique"
   ],
   "note": ""
  },
  {
   "property": "C06",
   "status": "proved",
   "theorems": [
    "C06_cal_isl_counts_islands"
   ],
   "note": ""
  },
  {
   "property": "C07",
   "status": "proved",
   "theorems": [
    "C07_cal_cell_nums_histogram",
    "C07_cell_nums_total"
   ],
   "note": ""
  },
  {
   "property": "C08",
   "status": "proved",
   "theorems": [
    "C08_bbbv_is_minimum_clicks",
    "C08_island_cellb_meaning"
   ],
   "note": ""
  },
  {
   "property": "C09",
   "status": "proved",
   "theorems": [
    "C09_refresh_board_exact"
   ],
   "note": ""
  },
  {
   "property": "C10",
   "status": "proved",
   "theorems": [
    "C10_click_on_mine",
    "C09_refresh_board_exact"
   ],
   "note": ""
  },
  {
   "property": "C11",
   "status": "proved",
   "theorems": [
    "C11_visible_board_never_lies"
   ],
   "note": ""
  },
  {
   "property": "C12",
   "status": "proved",
   "theorems": [
    "C12_win_iff_all_safe_open"
   ],
   "note": ""
  },
  {
   "property": "C13",
   "status": "proved",
   "theorems": [
    "C13_finished_game_is_frozen"
   ],
   "note": ""
  },
  {
   "property": "C14",
   "status": "proved",
   "theorems": [
    "C14_flag_counter"
   ],
   "note": ""
  },
  {
   "property": "C15",
   "status": "partial",
   "theorems": [
    "C15_no_crash_partial",
    "C15_no_crash_in_board_partial",
    "C15_refuted_out_of_board"
   ],
   "note": "no panic for every history whose positions are in the board (or the (row,column) position for the events that accept it) and whose pf events hit covered cells; the full claim is false of the code, four concrete panicking histories are proved"
  },
  {
   "property": "C16",
   "status": "proved",
   "theorems": [
    "C16_hit_mine_loses",
    "C16_left_click_on_mine_loses"
   ],
   "note": ""
  },
  {
   "property": "C17",
   "status": "proved",
   "theorems": [
    "C17_step_flow_split",
    "C17_step_flow_is_stepping"
   ],
   "note": ""
  },
  {
   "property": "C18",
   "status": "partial",
   "theorems": [
    "C18_counters_one_event",
    "C18_ce_bounded_partial",
    "C18_ce_bounded_no_preflag",
    "C18_refuted_preflag"
   ],
   "note": "ce <= left+right+double for histories that do not return to Ready after pre-flagging; the unrestricted claim is false of the code (refuted)"
  },
  {
   "property": "C19",
   "status": "partial",
   "theorems": [
    "C19_solved_bbbv_partial",
    "C19_won_game_solved_at_least",
    "C19_refuted_flagged_zero"
   ],
   "note": "exact value proved when no zero cell is ever flagged; at Win solved >= 3BV for every history; equality is false when zero cells were flagged (refuted)"
  },
  {
   "property": "C20",
   "status": "proved",
   "theorems": [
    "C20_generate_writes_format",
    "C20_evf_round_trip",
    "C20_too_long_game_cannot_be_saved"
   ],
   "note": "times in whole milliseconds, see C57 for the f64 conversion; the recorded board must be a legal board with at least one row"
  },
  {
   "property": "C21",
   "status": "partial",
   "theorems": [
    "C21_evf_parser_total_partial",
    "C21_refuted_height_zero"
   ],
   "note": "holds for every byte string except that a file with height byte 0 can panic (exactly characterised)"
  },
  {
   "property": "C22",
   "status": "proved",
   "theorems": [
    "C22_big_endian_readers"
   ],
   "note": ""
  },
  {
   "property": "C23",
   "status": "proved",
   "theorems": [
    "C23_readback",
    "C23_faithful",
    "C23_unstorable"
   ],
   "note": "9 is not a cell value; it is stored like 10"
  },
  {
   "property": "C24",
   "status": "partial",
   "theorems": [
    "C24_iter_yields_codes",
    "C24_refuted"
   ],
   "note": "false of the code: the iterator yields the internal codes; what it yields is proved exactly"
  },
  {
   "property": "C25",
   "status": "partial",
   "theorems": [
    "C25_stable_partial",
    "C25_every_answer",
    "C25_refuted"
   ],
   "note": "false of the code: caches are never filled; the exact answer after every history is proved (C25_every_answer)"
  },
  {
   "property": "C26",
   "status": "partial",
   "theorems": [
    "C26_first_position_partial",
    "C26_refuted"
   ],
   "note": "holds for the first position set on a GameBoard; a second position gets stale answers (C26_refuted). Probabilities: see C33"
  },
  {
   "property": "C27",
   "status": "proved",
   "theorems": [
    "C27_solve_direct_sound"
   ],
   "note": "for refresh_matrixs followed by any sequence of solve_direct/solve_minus calls on a position that some placement agrees with"
  },
  {
   "property": "C28",
   "status": "proved",
   "theorems": [
    "C28_solve_minus_sound"
   ],
   "note": "same setting as C27"
  },
  {
   "property": "C29",
   "status": "partial",
   "theorems": [
    "C29_solve_enumerate_partial",
    "C29_solve_enumerate_blocks",
    "C29_mines_complete_refuted"
   ],
   "note": "soundness for all systems; within the limit complete for safe cells; for mines complete exactly for unknowns whose column differs from all others; full completeness for mines is false of the code (C29_mines_complete_refuted)"
  },
  {
   "property": "C30",
   "status": "proved",
   "theorems": [
    "C30_refresh_matrix",
    "C30_refresh_matrixs",
    "C30_refresh_matrixses"
   ],
   "note": "refresh_matrix has no equations for zeros; refresh_matrixses: cells >= 0 (legal positions)"
  },
  {
   "property": "C31",
   "status": "proved",
   "theorems": [
    "C31_blocks_partition",
    "C31_chunk_matrixes"
   ],
   "note": ""
  },
  {
   "property": "C32",
   "status": "proved",
   "theorems": [
    "C32_table",
    "C32_counts_small"
   ],
   "note": "usize arithmetic is unbounded in the model; C32_counts_small bounds the counts by 2^unknowns"
  },
  {
   "property": "C33",
   "status": "proved",
   "theorems": [
    "C33_cal_possibility",
    "C33_onboard",
    "C33_parameter",
    "C33_parameter_zero",
    "C33_range",
    "C33_range_float",
    "C33_ratio",
    "C33_ratio_float",
    "C33_too_many"
   ],
   "note": "true f64 arithmetic (BigNumber, Flocq): cells, errors, mine range and the relative error of every probability; at most 800 unknown cells, blocks of at most 55 cells (larger ones are approximated by the code), at most 2^38 combinations. A mine number that is too large is not reported: all probabilities are NaN; 0 mines is taken as a ratio (C33_parameter_zero). The same in exact arithmetic without the bounds on cells and combinations: C33_cal_possibility_partial, C33_onboard_partial"
  },
  {
   "property": "C34",
   "status": "proved",
   "theorems": [
    "C34_combine"
   ],
   "note": ""
  },
  {
   "property": "C35",
   "status": "proved",
   "theorems": [
    "C35_is_able_to_solve",
    "C35_mark_board",
    "C35_all_on_board"
   ],
   "note": ""
  },
  {
   "property": "C36",
   "status": "proved",
   "theorems": [
    "C36_is_solvable",
    "C36_zero_start",
    "C36_small_board",
    "C36_false_off_zero_refuted"
   ],
   "note": "boards of at least 3x3 (the source demands more than 6x6; smaller ones crash) and a safe start; 'false' is exact for starts on a zero while at most 55 border cells exist, off a zero it can be wrong (C36_false_off_zero_refuted); cells are known safe by the seen numbers alone, the total mine count is not used"
  },
  {
   "property": "C37",
   "status": "proved",
   "theorems": [
    "C37_laymine_solvable"
   ],
   "note": "boards of at least 3x3 with room for the mines outside the start zone; the library shuffle is any permutation"
  },
  {
   "property": "C38",
   "status": "proved",
   "theorems": [
    "C38_every_schedule_ends",
    "C38_no_deadlock",
    "C38_result",
    "C38_budgets",
    "C38_success_may_be_lost"
   ],
   "note": "all interleavings of the eight workers, mutex and channel; a success can be lost because only the first message counts (C38_success_may_be_lost)"
  },
  {
   "property": "C39",
   "status": "partial",
   "theorems": [
    "C39_laymine_solvable_adjust_partial",
    "C39_crowded",
    "C39_planned_exact",
    "C39_mine_count_refuted",
    "C39_solvable_refuted"
   ],
   "note": "never crashes, always a legal board with a safe start and at least minenum mines, exactly minenum when not flagged or when the board is crowded; false of the code: a flagged board may have too many mines (C39_mine_count_refuted) or be unsolvable (C39_solvable_refuted)"
  },
  {
   "property": "C40",
   "status": "partial",
   "theorems": [
    "C40_seek",
    "C40_set_current_time_partial",
    "C40_refuted_same_time_twice"
   ],
   "note": "exact for every seek; false of the code when the current event is exactly at the requested time (then it moves one event back). The f64 additions of delta_time are exact in the model; C40_seek holds for whatever sum the machine computes"
  },
  {
   "property": "C41",
   "status": "proved",
   "theorems": [
    "C41_setters",
    "C41_checksum",
    "C41_set_board",
    "C41_getters",
    "C41_identity_protected",
    "C41_result_time_once"
   ],
   "note": ""
  },
  {
   "property": "C42",
   "status": "partial",
   "theorems": [
    "C42_only_after_the_game",
    "C42_first_checksum",
    "C42_later_checksums",
    "C42_refuted_second_checksum"
   ],
   "note": "false of the code for get_checksum after a second set_checksum"
  },
  {
   "property": "C43",
   "status": "proved",
   "theorems": [
    "C43_saving_never_overwrites"
   ],
   "note": "existence tests and the write are atomic in the model; I/O errors are not modelled"
  },
  {
   "property": "C44",
   "status": "partial",
   "theorems": [
    "C44_is_valid_exact",
    "C44_refuted_identifiers_ignored",
    "C44_refuted_crash"
   ],
   "note": "exact classification proved; the documented check of identifiers does not exist and a Viennasweeper video without start time crashes"
  },
  {
   "property": "C45",
   "status": "proved",
   "theorems": [
    "C45_legalize_board",
    "C45_legal_unchanged"
   ],
   "note": ""
  },
  {
   "property": "C46",
   "status": "proved",
   "theorems": [
    "C46_C_float",
    "C46_C_float_panics",
    "C46_C",
    "C46_C_query",
    "C46_C_panics"
   ],
   "note": "C with its IEEE doubles (BigNum.v, Flocq): normalized, relative error at most n*2^-50, exponent within i32; C_query exactly as coded; C_exact is the exact counterpart used by Possibility.v"
  },
  {
   "property": "C47",
   "status": "partial",
   "theorems": [
    "C47_refuted",
    "C47_exact",
    "C47_never_less",
    "C47_scan_start_meaning"
   ],
   "note": "false of the code: the two counts differ on a 16x30 board with one mine (C47_refuted). Proved for every legal 16x30 board: the fast count never panics, is the number of islands plus the number of scan starts (zeros with no zero among the neighbours before them in reading order), is never below the 3BV, and is the 3BV exactly when no region of zeros has two scan starts"
  },
  {
   "property": "C48",
   "status": "partial",
   "theorems": [
    "C48_good_chording_partial",
    "C48_last_column",
    "C48_refuted"
   ],
   "note": "exact answer for every column but the last; in the last column the code answers false if a neighbour gains more and panics otherwise (C48_last_column)"
  },
  {
   "property": "C49",
   "status": "partial",
   "theorems": [
    "C49_every_answer",
    "C49_refuted"
   ],
   "note": "false of the code: transposed uniform matrix, crash at event 0; the exact behaviour is proved"
  },
  {
   "property": "C50",
   "status": "proved",
   "theorems": [
    "C50_avf_exact",
    "C50_avf_board",
    "C50_avf_truncated",
    "C50_avf_panics",
    "C50_rmv_exact",
    "C50_rmv_board",
    "C50_rmv_truncated",
    "C50_rmv_panics",
    "C50_mvf_exact",
    "C50_mvf_board",
    "C50_mvf_truncated",
    "C50_mvf_panics",
    "C50_avf_error_refuted",
    "C50_rmv_error_refuted",
    "C50_rmv_flag_place_refuted",
    "C50_mvf_accepts_anything_refuted",
    "C50_mvf_error_refuted"
   ],
   "note": "the formats are written down in OldSpec.v; times exact (ms); the float text of the avf result time and the five trigonometric numbers of the mvf key are parameters. Also exactly which malformed files make each parser panic, that mvf accepts every file of another version without reading it, and that rmv flags set before the game come out with x and y exchanged"
  },
  {
   "property": "C51",
   "status": "proved",
   "theorems": [
    "C51_laymine_bijective"
   ],
   "note": ""
  },
  {
   "property": "C52",
   "status": "proved",
   "theorems": [
    "C52_left_click_effect"
   ],
   "note": ""
  },
  {
   "property": "C53",
   "status": "proved",
   "theorems": [
    "C53_chording_effect"
   ],
   "note": ""
  },
  {
   "property": "C54",
   "status": "proved",
   "theorems": [
    "C54_right_click_effect"
   ],
   "note": "flagged so far = the flagedList field"
  },
  {
   "property": "C55",
   "status": "proved",
   "theorems": [
    "C55_truncated_file_detected"
   ],
   "note": ""
  },
  {
   "property": "C56",
   "status": "proved",
   "theorems": [
    "C56_resave_loaded_video"
   ],
   "note": ""
  },
  {
   "property": "C57",
   "status": "proved",
   "theorems": [
    "C57_ms_round_trip",
    "C57_ms_monotone"
   ],
   "note": "IEEE binary64 via Flocq; rests on the standard library's axioms of the real numbers (listed in DESIGN.md)"
  },
  {
   "property": "C58",
   "status": "partial",
   "theorems": [
    "C58_replay_partial",
    "C58_path_differs_by_the_opening_click",
    "C58_refuted"
   ],
   "note": "exact for sessions of nine-kind events whose counters are zero when the game falls back to Ready and whose board is only replaced before any flag; outside these conditions false of the code (C58_refuted)"
  },
  {
   "property": "C59",
   "status": "partial",
   "theorems": [
    "C59_result_time_partial",
    "C59_replay_clock",
    "C59_one_click_game",
    "C59_refuted"
   ],
   "note": "games whose opening click does not end the game; a one-click game reports the time since the first press, or crashes after reset (C59_refuted)"
  },
  {
   "property": "C60",
   "status": "proved",
   "theorems": [
    "C60_unsolvable_structure",
    "C60_unsettled_needs_guess",
    "C60_zero_start"
   ],
   "note": "boards of at least 3x3; smaller ones crash"
  },
  {
   "property": "C61",
   "status": "proved",
   "theorems": [
    "C61_win_flags_all_mines",
    "C61_loss_opens_all_mines",
    "C61_only_at_the_end"
   ],
   "note": "objects made with new_before_game and used to play, sign and save"
  },
  {
   "property": "C62",
   "status": "partial",
   "theorems": [
    "C62_playback",
    "C62_cursor",
    "C62_refuted_losing_click"
   ],
   "note": "counters exact at every event; the board exact in running and won games and otherwise the one after the last event that took effect; false of the code at a losing left click (the hit mine is never shown) and get_x_y crashes when all events so far are right of the board"
  },
  {
   "property": "C63",
   "status": "proved",
   "theorems": [
    "C63_every_event",
    "C63_times"
   ],
   "note": "clock readings are integers of microseconds; spans below 49 days"
  },
  {
   "property": "C64",
   "status": "partial",
   "theorems": [
    "C64_is_guess_while_needless",
    "C64_certain_mine_refuted",
    "C64_necessary_guess_refuted",
    "C30_groups_are_regions_refuted"
   ],
   "note": "false of the code for cells that touch no number: 4 may be answered for a cell that is no certain mine, 2 although the region has a certainly safe cell (refresh_matrixses can split a region); the exact verdicts are proved"
  },
  {
   "property": "C65",
   "status": "partial",
   "theorems": [
    "C65_opening_probability_float",
    "C65_small_float",
    "C65_cells_float",
    "C65_opening_probability_partial",
    "C65_opening_probability",
    "C65_exact_partial",
    "C65_total_partial",
    "C65_float_exact_partial",
    "C65_float_total_partial",
    "C65_cells",
    "C65_cells_total",
    "C65_nan_refuted_float",
    "C65_nan_refuted"
   ],
   "note": "true f64 arithmetic with an absolute error of at most 18 (N + 4000) / 2^50, bounds on cells, blocks and combinations as in C33; also in exact arithmetic without them, where the value is exact when an opening is possible and 0 or NaN when not (C65_exact_partial), and the function always answers, even on contradictory positions (C65_total_partial); both also in f64 (C65_float_exact_partial, C65_float_total_partial: a number within the error, or NaN and that only where an opening is impossible). False of the code when the cell can not be an opening: the answer may be NaN instead of 0 (C65_nan_refuted_float)"
  },
  {
   "property": "C66",
   "status": "proved",
   "theorems": [
    "C66_mvf_write_read",
    "C66_record_coding",
    "C66_record_limits"
   ],
   "note": "for every function from the leading number to the five numbers of the key (the code computes them with f64 sqrt, sin, cos)"
  },
  {
   "property": "C67",
   "status": "partial",
   "theorems": [
    "C67_high_risk_partial",
    "C67_high_risk_float_partial",
    "small_float_file",
    "C67_only_survived",
    "C67_refuted_fatal_guess"
   ],
   "note": "with exact fractions (C67_high_risk_partial) and in f64 arithmetic (C67_high_risk_float_partial: the threshold is sharp up to the error of the probability, and the printed chance has that error); systems of at most 55 cells as in C33, the mine number stored in the file right. A guess that hits a mine is never marked (C67_refuted_fatal_guess): the code looks only at events that opened something"
  },
  {
   "property": "C68",
   "status": "partial",
   "theorems": [
    "C68_jump_judge",
    "C68_sound",
    "C68_complete",
    "C68_refuted_hard_flag"
   ],
   "note": "exact for left clicks. Flagging a cell that only the enumeration proves to be a mine is never marked although the code means to (C68_refuted_hard_flag)"
  },
  {
   "property": "C69",
   "status": "partial",
   "theorems": [
    "C69_needless_partial",
    "C69_needless_float_partial",
    "C69_refuted_forced_guess"
   ],
   "note": "exactly the left clicks that opened a possible mine are marked, with exact and with f64 probabilities (conditions as in C33); false of the code: also when no safe cell was available (C69_refuted_forced_guess)"
  },
  {
   "property": "C70",
   "status": "partial",
   "theorems": [
    "C70_vision_transfer",
    "C70_refuted_no_events"
   ],
   "note": "exact for files with at least one event; a file without events makes the analysis panic"
  },
  {
   "property": "C71",
   "status": "partial",
   "theorems": [
    "C71_survive_partial",
    "C71_survive_float_partial",
    "C71_refuted_order",
    "C71_refuted_chord_guess"
   ],
   "note": "with exact fractions and in f64 arithmetic (error of every printed factor and of the product); conditions as in C33. The comment replaces earlier comments of the last event, so the order of the analyses matters, contrary to the documentation (C71_refuted_order); guesses made with a chord are not counted (C71_refuted_chord_guess)"
  },
  {
   "property": "C72",
   "status": "partial",
   "theorems": [
    "C72_mouse_trace",
    "C72_refuted_straight"
   ],
   "note": "true f64 arithmetic (Flocq). The comment for a straight path is never given (C72_refuted_straight)"
  },
  {
   "property": "C73",
   "status": "partial",
   "theorems": [
    "C73_super_fl",
    "C73_kinds",
    "C73_crash",
    "C73_refuted_unfinished",
    "C73_refuted_outside",
    "C73_refuted_last_column"
   ],
   "note": "exact for files that do not crash the analysis, and exactly which files do (C73_crash: a right press outside the board, a good double click in the last column); a run still under way at the end of the file is not praised (C73_refuted_unfinished)"
  },
  {
   "property": "C74",
   "status": "partial",
   "theorems": [
    "C74_clock",
    "C74_playing",
    "C74_monotone",
    "C74_result",
    "C74_refuted"
   ],
   "note": "f64 values (Flocq) over arbitrary sessions. False of the code: when flags were put before the game, reading the clock in the first 0.5 ms after the opening click can panic (u32 subtraction overflows; C74_refuted)"
  },
  {
   "property": "C75",
   "status": "partial",
   "theorems": [
    "C75_after_game",
    "C75_playing",
    "C75_before",
    "C75_playback",
    "C75_refuted"
   ],
   "note": "exact error bounds for the six rates; false of the code for get_ce_s, get_rqp, get_qg: they look at the playback position and are 0 after every recorded game (C75_refuted)"
  },
  {
   "property": "C76",
   "status": "partial",
   "theorems": [
    "C76_ratios",
    "C76_available",
    "C76_refuted"
   ],
   "note": "everything but 'never above 1', which is false of the code: a flag put and removed before the game makes corr 2 (C76_refuted); with ce <= clicks it is proved"
  },
  {
   "property": "C77",
   "status": "proved",
   "theorems": [
    "C77_etime",
    "C77_stnb"
   ],
   "note": "powf of the platform is a parameter"
  },
  {
   "property": "C78",
   "status": "partial",
   "theorems": [
    "C78_path_before_opening",
    "C78_path_is_the_walk",
    "C78_get_path",
    "C78_path_never_decreases_on_the_board",
    "C78_replay_path",
    "C78_refuted"
   ],
   "note": "f64 values (Flocq) over arbitrary sessions; powf(x, 0.5) is any function within two roundings of the square root. The playback claim is proved for games whose events are all on the board and is false of the code otherwise; a pointer that leaves the board makes the path grow and then shrink (C78_refuted)"
  },
  {
   "property": "C79",
   "status": "partial",
   "theorems": [
    "C79_sample_partial",
    "C79_board_is_laymine",
    "C79_fewer_games",
    "C79_refuted"
   ],
   "note": "no panic, the boards, the 382 bins and their contents are proved for every start cell, every n and all shuffles; false of the code: only 16*(n/16) games are played instead of n, and the value recorded is cal_bbbv_exp, not the 3BV (C79_refuted)"
  },
  {
   "property": "C80",
   "status": "partial",
   "theorems": [
    "C80_no_explanation",
    "C80_explained",
    "C80_ratio",
    "C80_total",
    "C80_onboard",
    "C80_overflagged_refuted",
    "C80_float_total",
    "C80_onboard_float"
   ],
   "note": "proved for all positions in which no number next to a covered cell has more flags around it than it says; false of the code otherwise: such a position makes a checked build panic instead of reporting the contradiction (C80_overflagged_refuted). C80_float_total and C80_onboard_float: the same for the f64 program, its values within the relative error of C33"
  },
  {
   "property": "C81",
   "status": "proved",
   "theorems": [
    "C81_cal_possibility",
    "C81_onboard",
    "C81_range",
    "C81_ratio",
    "C81_exists",
    "C81_small",
    "C81_certain_mine_missed",
    "C81_float",
    "C81_onboard_float",
    "C81_range_float"
   ],
   "note": "exact fractions for blocks of any size; C81_float, C81_onboard_float, C81_range_float: the f64 program within the relative error of C33, for boards of at most 800 covered cells. C81_certain_mine_missed: with 56 cells a mine that is certain gets the probability 1/56, as if C33 did not hold there"
  }
 ]
}