{"id": "C01", "title": "laymine produces exactly the requested board", "statement": "laymine(row, column, minenum, x0, y0) returns a row x column board that has exactly minenum mines (-1), whose start cell (x0, y0) is never a mine, and in which every non-mine cell holds the number of mines among its (at most 8) neighbours.", "quantifier": "every board size, every minenum <= row*column-1, every in-board start cell, every outcome of the random shuffle", "why_tests_cant": "the space of boards times shuffles is unbounded; sampling cannot show that the start cell is never mined", "anchors": ["base/src/utils.rs:laymine", "base/src/utils.rs:cal_board_numbers"]}
{"id": "C02", "title": "laymine_op always opens at the start cell", "statement": "laymine_op(row, column, minenum, x0, y0) returns a board with exactly minenum mines whose start cell and all its neighbours are mine free, so that the start cell has number 0; every non-mine cell holds its neighbour count.", "quantifier": "every board size, every in-board start, every minenum that fits outside the start zone, every shuffle", "why_tests_cant": "depends on every corner/edge/thin-board case of the start zone and every shuffle", "anchors": ["base/src/utils.rs:laymine_op"]}
{"id": "C03", "title": "cal_board_numbers fills exact neighbour counts", "statement": "Given a rectangular board whose cells are 0 or -1, cal_board_numbers leaves mines unchanged and replaces each other cell by the number of -1 cells among its 8-neighbours, never touching anything outside the board.", "quantifier": "every rectangular board of every size", "why_tests_cant": "universal over sizes and mine layouts, including borders of all widths", "anchors": ["base/src/utils.rs:cal_board_numbers"]}
{"id": "C04", "title": "shuffling only permutes", "statement": "The in-place shuffle used for laying mines in the js build returns a rearrangement of its input (no element is lost, duplicated or invented) and every random index it uses is inside the vector; on distinct elements every arrangement results from exactly one sequence of draws, and each draw is uniform over its range.", "quantifier": "every vector and every random stream", "why_tests_cant": "a permutation property over all random streams", "anchors": ["base/src/utils.rs:shuffle_", "base/src/utils.rs:get_random_int"]}
{"id": "C05", "title": "cal_op counts the 8-connected openings", "statement": "cal_op(board) is exactly the number of 8-connected components of zero cells.", "quantifier": "every rectangular board", "why_tests_cant": "connected-component counting over every topology of openings (spirals, rings, combs)", "anchors": ["base/src/utils.rs:cal_op", "base/src/utils.rs:infect_board"]}
{"id": "C06", "title": "cal_isl counts islands", "statement": "cal_isl(board) is exactly the number of 8-connected components of numbered cells (value > 0) having no zero cell in their neighbourhood.", "quantifier": "every rectangular board", "why_tests_cant": "every topology", "anchors": ["base/src/utils.rs:cal_isl"]}
{"id": "C07", "title": "cal_cell_nums is the histogram of numbers", "statement": "For a board with values in -1..8, cal_cell_nums(board)[k] is the number of cells with value k, and the nine counts add up to the number of non-mine cells.", "quantifier": "every rectangular board with cell values <= 8", "why_tests_cant": "all boards", "anchors": ["base/src/utils.rs:cal_cell_nums"]}
{"id": "C08", "title": "cal_bbbv is the true 3BV", "statement": "cal_bbbv(board) equals the number of openings plus the number of numbered cells not adjacent to a zero, and is the minimum number of left clicks that opens every safe cell.", "quantifier": "every legal rectangular board and every click sequence", "why_tests_cant": "minimality quantifies over all click sequences", "anchors": ["base/src/utils.rs:cal_bbbv", "base/src/utils.rs:cal3BVonIsland"]}
{"id": "C09", "title": "refresh_board opens exactly the right cells", "statement": "refresh_board(board, game_board, clicks) terminates and opens exactly the clicked cells together with every covered, unflagged cell reachable from them through opened zero cells; every opened safe cell shows the real number; no other cell changes.", "quantifier": "every board, every game_board, every click list", "why_tests_cant": "flood fill on all topologies; no finite test set covers it", "anchors": ["base/src/utils.rs:refresh_board"]}
{"id": "C10", "title": "refresh_board on a mine", "statement": "If a clicked cell is a mine, that cell becomes 15 (exploded), every wrong flag (flag on a safe cell) becomes 14, and nothing else is opened by it.", "quantifier": "every board, game_board and click list containing a mine", "why_tests_cant": "all layouts of flags and mines", "anchors": ["base/src/utils.rs:refresh_board"]}
{"id": "C11", "title": "the visible board never lies", "statement": "After any sequence of mouse events accepted by MinesweeperBoard.step, every cell of game_board shown as a number 0..8 equals the real board's number, game_board keeps the board's dimensions, and no covered safe cell is ever shown as exploded.", "quantifier": "every board and every event sequence", "why_tests_cant": "quantifies over unbounded event histories", "anchors": ["base/src/videos/minesweeper_board.rs:MinesweeperBoard::step", "base/src/videos/minesweeper_board.rs:left_click", "base/src/videos/minesweeper_board.rs:chording_click"]}
{"id": "C12", "title": "Win is declared exactly when all safe cells are open", "statement": "In any reachable game, the state becomes Win at a step if and only if after this step every non-mine cell of the board is opened.", "quantifier": "every board and every event sequence", "why_tests_cant": "is_win uses a resumable pointer, so correctness depends on the whole history", "anchors": ["base/src/videos/minesweeper_board.rs:is_win", "base/src/videos/minesweeper_board.rs:step"]}
{"id": "C13", "title": "a finished game is frozen", "statement": "Once the game is in Win or Loss, no further event changes the visible board, the counters or the state.", "quantifier": "every reachable finished game and every further event sequence", "why_tests_cant": "all continuations", "anchors": ["base/src/videos/minesweeper_board.rs:step"]}
{"id": "C14", "title": "flag counter equals flags on the board", "statement": "In every reachable state the flag counter (field flag) equals the number of flagged cells (11) of game_board while the game is running.", "quantifier": "every board and every event sequence, including pre-flagging and reset", "why_tests_cant": "all histories", "anchors": ["base/src/videos/minesweeper_board.rs:right_click", "base/src/videos/minesweeper_board.rs:step"]}
{"id": "C15", "title": "events never crash the game", "statement": "Feeding any of the documented mouse events with any in-board or out-of-board pixel position to MinesweeperBoard.step returns Ok or Err but never panics (no index out of range, no counter underflow).", "quantifier": "every event sequence", "why_tests_cant": "all histories", "anchors": ["base/src/videos/minesweeper_board.rs:step"]}
{"id": "C16", "title": "hitting a mine never wins", "statement": "If a left click or a chord opens a mine the game ends in Loss, never in Win.", "quantifier": "every board, every history", "why_tests_cant": "depends on which other cells the same chord opens", "anchors": ["base/src/videos/minesweeper_board.rs:chording_click", "base/src/videos/minesweeper_board.rs:left_click"]}
{"id": "C17", "title": "step_flow equals stepping one by one", "statement": "step_flow(events) has the same effect as calling step on the events in order and stops at the first error; splitting a flow in two and replaying the halves gives the same state.", "quantifier": "every event list and every split", "why_tests_cant": "all lists", "anchors": ["base/src/videos/minesweeper_board.rs:step_flow"]}
{"id": "C18", "title": "click statistics are consistent", "statement": "In every reachable game ce (effective clicks) never exceeds left + right + double, none of the counters decreases while playing except right-to-double reclassification, and solved 3BV increases only with effective clicks.", "quantifier": "every history", "why_tests_cant": "all histories", "anchors": ["base/src/videos/minesweeper_board.rs:step"]}
{"id": "C19", "title": "solved 3BV is correct", "statement": "In every reachable game bbbv_solved is at most the board's 3BV, and equals it when the game is won.", "quantifier": "every board and history", "why_tests_cant": "all histories", "anchors": ["base/src/videos/minesweeper_board.rs:cell_is_bbbv", "base/src/videos/minesweeper_board.rs:cell_is_op_completed"]}
{"id": "C20", "title": "EVF save/parse round trip", "statement": "Parsing the bytes produced by generate_evf_v0_raw_data gives back the same dimensions, mines, metadata strings, result flags, and the same list of events (kind, time in ms, coordinates).", "quantifier": "every finished video within the format's field widths", "why_tests_cant": "all field values, all event lists, all board sizes (bit packing with partial last byte)", "anchors": ["base/src/videos/base_video.rs:generate_evf_v0_raw_data", "base/src/videos/evf_video.rs:parse_video"]}
{"id": "C21", "title": "EVF parser never crashes on arbitrary bytes", "statement": "parse_video of an EVF file returns Ok or an error for every byte string; it never indexes out of range or loops forever.", "quantifier": "every byte string", "why_tests_cant": "all inputs, including truncated files", "anchors": ["base/src/videos/evf_video.rs:parse_video", "base/src/videos/base_video.rs:get_u8"]}
{"id": "C22", "title": "big-endian readers", "statement": "get_u16/get_u24/get_u32/get_i16... read exactly 2/3/4 bytes big-endian, advance the offset by exactly that, and report FileIsTooShort exactly when fewer bytes remain.", "quantifier": "every byte string and offset", "why_tests_cant": "all inputs", "anchors": ["base/src/videos/base_video.rs:get_u16", "base/src/videos/base_video.rs:get_u24", "base/src/videos/base_video.rs:get_u32"]}
{"id": "C23", "title": "SafeBoard hides values but reads back exactly", "statement": "Storing any legal cell value in a SafeBoard and reading it back yields the same value, whatever random masks are drawn, without 32-bit overflow.", "quantifier": "every legal value -1..8,10..16 and all random draws", "why_tests_cant": "all random masks", "anchors": ["base/src/safe_board.rs:SafeBoardRow::new", "base/src/safe_board.rs:SafeBoardRow::index"]}
{"id": "C24", "title": "iterating a SafeBoardRow yields its cells", "statement": "Iterating over a SafeBoardRow yields the same values as indexing it.", "quantifier": "every row and all random draws", "why_tests_cant": "all rows and masks", "anchors": ["base/src/safe_board.rs:Iterator for SafeBoardRow"]}
{"id": "C25", "title": "Board statistics are stable", "statement": "Querying a Board's bbbv, op, isl and cell counts, in any order and any number of times, always returns the true statistics of the board.", "quantifier": "every board, every sequence of queries", "why_tests_cant": "all query orders (lazy caches)", "anchors": ["base/src/board.rs:Board"]}
{"id": "C26", "title": "GameBoard analysis is about the current position", "statement": "After set_game_board, every query of GameBoard answers about the position just set, whatever was set or queried before.", "quantifier": "every sequence of set/query operations", "why_tests_cant": "all histories (lazy caches)", "anchors": ["base/src/board.rs:GameBoard"]}
{"id": "C27", "title": "solve_direct is sound", "statement": "Every cell marked safe (12) or mine (11) by solve_direct is safe (resp. a mine) in every mine placement consistent with the numbers, and it never reports an error on a consistent position.", "quantifier": "every consistent position", "why_tests_cant": "all positions and all consistent placements", "anchors": ["base/src/algorithms.rs:solve_direct"]}
{"id": "C28", "title": "solve_minus is sound", "statement": "Same as for solve_direct, for the subtraction rule solve_minus.", "quantifier": "every consistent position", "why_tests_cant": "all positions and all consistent placements", "anchors": ["base/src/algorithms.rs:solve_minus"]}
{"id": "C29", "title": "solve_enumerate is sound and complete", "statement": "On blocks within the enumeration limit, solve_enumerate returns exactly the cells that are safe in all, and exactly the cells that are mines in all, placements consistent with the equations.", "quantifier": "every consistent block system", "why_tests_cant": "all systems and solutions", "anchors": ["base/src/algorithms.rs:solve_enumerate"]}
{"id": "C30", "title": "constraint matrices mean the position", "statement": "The equations built by refresh_matrix / refresh_matrixs / refresh_matrixses from a position have exactly the same solutions as the position's numbers: a mine placement on the unknown cells satisfies all equations iff every open number equals its adjacent mines.", "quantifier": "every position and every placement", "why_tests_cant": "all positions", "anchors": ["base/src/utils.rs:refresh_matrix", "base/src/utils.rs:refresh_matrixs", "base/src/utils.rs:refresh_matrixses"]}
{"id": "C31", "title": "blocks are independent", "statement": "The blocks returned by refresh_matrixs partition the constrained unknown cells and equations; no equation mentions cells of two blocks.", "quantifier": "every position", "why_tests_cant": "all positions", "anchors": ["base/src/utils.rs:refresh_matrixs", "base/src/utils.rs:chunk_matrix"]}
{"id": "C32", "title": "the enumeration table counts solutions exactly", "statement": "cal_table_minenum_recursion returns for every k the exact number of 0/1 solutions with k mines and, for every cell, the exact number of those where the cell is a mine.", "quantifier": "every block system within the limit", "why_tests_cant": "counting over all solutions", "anchors": ["base/src/utils.rs:cal_table_minenum_recursion", "base/src/utils.rs:combine"]}
{"id": "C33", "title": "cal_possibility is the posterior", "statement": "cal_possibility gives each unknown cell the fraction (number of consistent placements of minenum mines with a mine there)/(number of consistent placements), as a double with a relative error of at most (N + 4000) * 2^-50, N the number of combinations of block mine numbers the code enumerates (below 0.001 up to N = 2^38, about 10^-11 for usual positions); NaN if there is no such placement; error 17 for fewer mines than flags, error 3 if every explanation needs more mines. cal_possibility_onboard puts the same numbers at their places, 1 for flags, 0 for opened cells.", "quantifier": "every consistent position with at most 800 unknown cells and interdependent blocks of at most 55 cells (ENUM_LIMIT), and every mine count", "why_tests_cant": "counting over all placements", "anchors": ["base/src/algorithms.rs:cal_possibility"]}
{"id": "C34", "title": "combine merges only equivalent cells", "statement": "combine groups unknown cells that appear in exactly the same equations; each group keeps all its cells exactly once, and solutions of the merged system correspond to solutions of the original.", "quantifier": "every 0/1 matrix", "why_tests_cant": "all matrices", "anchors": ["base/src/utils.rs:combine"]}
{"id": "C35", "title": "is_able_to_solve", "statement": "is_able_to_solve answers true for a covered cell only if the cell's content is logically determined by the position.", "quantifier": "every position and cell", "why_tests_cant": "all positions", "anchors": ["base/src/algorithms.rs:is_able_to_solve", "base/src/algorithms.rs:mark_board"]}
{"id": "C36", "title": "is_solvable means no guess is needed", "statement": "is_solvable(board, x0, y0) always answers; if true, then starting at (x0,y0) every safe cell can be opened by repeatedly opening only cells that are provably safe; if false for a start on a zero (and never more than 55 border cells), this is impossible.", "quantifier": "every board and start", "why_tests_cant": "all boards; soundness of the whole reasoning chain", "anchors": ["base/src/algorithms.rs:is_solvable"]}
{"id": "C37", "title": "laymine_solvable is honest", "statement": "laymine_solvable returns a legal board with exactly minenum mines and a mine-free start; when its success flag is true the board is solvable without guessing.", "quantifier": "all parameters, all shuffles, all retry limits", "why_tests_cant": "all random streams", "anchors": ["base/src/algorithms.rs:laymine_solvable"]}
{"id": "C38", "title": "laymine_solvable_thread is honest under every schedule", "statement": "Whatever the interleaving of the worker threads, the result flag true implies the returned board passes is_solvable, and the call always returns.", "quantifier": "every schedule of the worker threads", "why_tests_cant": "all interleavings", "anchors": ["base/src/algorithms.rs:laymine_solvable_thread"]}
{"id": "C39", "title": "laymine_solvable_adjust preserves the mine count", "statement": "The adjusting generator returns a board with exactly minenum mines, numbers consistent with mines and, when flagged successful, solvable.", "quantifier": "all random streams", "why_tests_cant": "all streams", "anchors": ["base/src/algorithms.rs:laymine_solvable_adjust", "base/src/algorithms.rs:adjust_step"]}
{"id": "C40", "title": "set_current_time lands on the right event", "statement": "After set_current_time(t) the current event of an analysed video is the last event whose time is <= t (or the first one).", "quantifier": "every event list, every current position, every t", "why_tests_cant": "all histories of seeking", "anchors": ["base/src/videos/base_video.rs:set_current_time"]}
{"id": "C41", "title": "metadata can only be written when allowed", "statement": "Setters for the player's identity, result and checksum succeed exactly in the documented game states and change nothing when they return an error; every getter gated by state errors outside it.", "quantifier": "every state and every call", "why_tests_cant": "all states and call sequences", "anchors": ["base/src/videos/base_video.rs:set_*"]}
{"id": "C42", "title": "checksum is stored where the parser expects it", "statement": "After set_checksum the raw data is the old data with the terminator replaced by the checksum marker and the 32 checksum bytes; a second call replaces those bytes; get_checksum returns what was set last.", "quantifier": "every video and every sequence of checksums", "why_tests_cant": "all sequences", "anchors": ["base/src/videos/base_video.rs:set_checksum"]}
{"id": "C43", "title": "saving never overwrites", "statement": "save_to_evf_file never writes to an existing file: it picks the first free name in name.evf, name(2).evf, name(3).evf, ...", "quantifier": "every set of existing files", "why_tests_cant": "all directory contents", "anchors": ["base/src/videos/base_video.rs:save_to_evf_file"]}
{"id": "C44", "title": "is_valid classifies videos as documented", "statement": "is_valid returns 0/1/3 exactly according to the documented rules on software, completion, level, identifiers and checksum.", "quantifier": "every video", "why_tests_cant": "all combinations", "anchors": ["base/src/videos/base_video.rs:is_valid"]}
{"id": "C45", "title": "legalize_board yields a legal position", "statement": "After legalize_board every cell is a legal game_board value and no number exceeds its covered or flagged neighbours; illegal values become covered cells, other values than numbers are unchanged and numbers never grow; a position that is already legal is unchanged (so the function is idempotent).", "quantifier": "every board", "why_tests_cant": "all boards", "anchors": ["base/src/utils.rs:legalize_board"]}
{"id": "C46", "title": "binomial tables are right", "statement": "C_query(n,k) returns the binomial coefficient; C(n,k), a floating point number a*10^b, is normalized (1 <= a < 10) and its relative error is at most n*2^-50, for all n < 2^31, far beyond the f64 range.", "quantifier": "all n,k in the supported range", "why_tests_cant": "all values", "anchors": ["base/src/utils.rs:C", "base/src/utils.rs:C_query"]}
{"id": "C47", "title": "fast 3BV for expert boards agrees", "statement": "cal_bbbv_exp agrees with cal_bbbv on every 16x30 board.", "quantifier": "every 16x30 board", "why_tests_cant": "2^480 boards", "anchors": ["base/src/utils.rs:cal_bbbv_exp"]}
{"id": "C48", "title": "is_good_chording never crashes", "statement": "is_good_chording(game_board, pos) returns an answer for every in-board position, and the answer is true exactly when chording there would open at least one covered cell and no orthogonally adjacent chord would open more.", "quantifier": "every position", "why_tests_cant": "all positions", "anchors": ["base/src/utils.rs:is_good_chording"]}
{"id": "C49", "title": "get_game_board_poss has the board's shape", "statement": "BaseVideo.get_game_board_poss returns a matrix with the same dimensions as the board for every playable current event.", "quantifier": "every video and current event", "why_tests_cant": "all board shapes", "anchors": ["base/src/videos/base_video.rs:get_game_board_poss"]}
{"id": "C50", "title": "AVF/RMV/MVF parsers reconstruct the mines", "statement": "A well formed AVF, RMV or MVF (Clone 0.97) file is read, whatever follows it; the parsed board has mines exactly at the coordinates listed in the file and correct numbers elsewhere, and level, size, 3BV, time, player and events are those of the file; nothing else is accepted; a file cut short anywhere yields an error, not a crash; the parsers always end.", "quantifier": "every byte string", "why_tests_cant": "all files", "anchors": ["base/src/videos/avf_video.rs:parse_video", "base/src/videos/rmv_video.rs:parse_video", "base/src/videos/mvf_video.rs:parse_video"]}
{"id": "C51", "title": "standard laying is uniform", "statement": "For fixed parameters, every legal board with minenum mines and a mine-free start arises from exactly one arrangement of the one-dimensional mine vector, so a uniform shuffle yields the uniform distribution on such boards.", "quantifier": "every legal board", "why_tests_cant": "quantifies over all boards", "anchors": ["base/src/utils.rs:laymine"]}
{"id": "C52", "title": "a left click opens exactly the right cells", "statement": "In a running game a left press and release at p does nothing if p is flagged or open; on a covered mine it loses and shows that mine; otherwise it opens exactly p and what spreads from opened zeros, counts one effective click, and ends the game exactly when no safe cell is left.", "quantifier": "every game history and position", "why_tests_cant": "all histories and boards", "anchors": ["base/src/videos/minesweeper_board.rs:left_click", "base/src/videos/minesweeper_board.rs:step"]}
{"id": "C53", "title": "chording opens exactly the covered neighbours", "statement": "In a running game a chord (middle button, or left and right released in either order) takes effect exactly when the cell shows a number equal to its flagged neighbours and has a covered neighbour; then it opens exactly the covered unflagged neighbours and what spreads from them (or loses, showing the mines it hit); otherwise nothing visible changes. It counts one double click either way.", "quantifier": "every game history, position and way of chording", "why_tests_cant": "all histories and boards", "anchors": ["base/src/videos/minesweeper_board.rs:chording_click", "base/src/videos/minesweeper_board.rs:step"]}
{"id": "C54", "title": "a right click toggles one flag", "statement": "In a running game a right press and release on a covered cell toggles its flag and changes no other cell; flagging is effective (ce) exactly the first time a mine is flagged; on an open cell nothing changes.", "quantifier": "every game history and position", "why_tests_cant": "all histories", "anchors": ["base/src/videos/minesweeper_board.rs:right_click", "base/src/videos/minesweeper_board.rs:step"]}
{"id": "C55", "title": "a truncated evf file is always reported", "statement": "If only a proper prefix of the bytes of a saved evf file is present (interrupted write, cut download), parse_video returns FileIsTooShort; it never returns a video and never crashes.", "quantifier": "every saved video and every cut position", "why_tests_cant": "all videos, all crash points", "anchors": ["base/src/videos/evf_video.rs:parse_video", "base/src/videos/base_video.rs:generate_evf_v0_raw_data"]}
{"id": "C56", "title": "re-saving a loaded evf video keeps its content", "statement": "Every video that parse_video accepts can be encoded again without a crash, and parsing that encoding gives the same video (without the checksum, which is not carried over).", "quantifier": "every byte string the parser accepts", "why_tests_cant": "all files, also those written by other programs", "anchors": ["base/src/videos/evf_video.rs:parse_video", "base/src/videos/base_video.rs:generate_evf_v0_raw_data"]}
{"id": "C57", "title": "millisecond time stamps survive f64", "statement": "Reading a time of n milliseconds as n as f64 / 1000.0 and writing it with s_to_ms gives n back for every u32 n; writing never reorders time stamps.", "quantifier": "every millisecond count; all pairs of finite times", "why_tests_cant": "2^32 values, all pairs of floats", "anchors": ["base/src/miscellaneous.rs:s_to_ms", "base/src/videos/evf_video.rs:parse_video"]}
{"id": "C58", "title": "a recorded game replays as it was played", "statement": "If a game is played to its end on a recording object, saved to evf and read back, then analysing the file succeeds and yields the same events with the same usefulness, button states and click/flag/solved counters after every event, the same sequence of visible boards, the same result, 3BV, openings, islands, number histogram and result time; the path length differs only by the hop inside the opening click.", "quantifier": "every board, every sequence of calls on the recording object up to the end of the game, with or without checksum", "why_tests_cant": "all histories of a recording session", "anchors": ["base/src/videos/base_video.rs:step", "base/src/videos/base_video.rs:analyse", "base/src/videos/base_video.rs:generate_evf_v0_raw_data", "base/src/videos/evf_video.rs:parse_video"]}
{"id": "C59", "title": "the result time counts from the opening click", "statement": "At the end of a game the result time is the time of the last event minus the time of the event that opened the first cell; the replay of the saved game shows the same clock, starting at minus the opening time and ending at the result time.", "quantifier": "every game history", "why_tests_cant": "all histories, including preflagging, reset and one-click games", "anchors": ["base/src/videos/base_video.rs:step", "base/src/videos/base_video.rs:get_video_start_time", "base/src/videos/base_video.rs:get_video_end_time"]}
{"id": "C60", "title": "unsolvable_structure reports exactly the unsettled places", "statement": "On boards with at least three rows and columns unsolvable_structure answers true exactly when the board has a safe cell walled in by mines, a pair of neighbouring cells (one mine) that no other safe cell tells apart, or a chequered 2x2 square whose outer corners touch no safe cell; and then nobody starting outside that place (in particular on a zero) can win without guessing.", "quantifier": "every legal board of at least 3x3, every start", "why_tests_cant": "all boards and all mine placements compatible with what has been seen", "anchors": ["base/src/utils.rs:unsolvable_structure"]}
{"id": "C61", "title": "showing the mines at the end", "statement": "After a won game win_then_flag_all_mine makes the visible board show a flag on every mine and the number on every other cell; after a lost game loss_then_open_all_mine turns exactly the covered unflagged mines into shown mines (16) and leaves every other cell (flags, the blast, numbers) as it was; at any other time both do nothing.", "quantifier": "every board and every history of a recording object", "why_tests_cant": "all games", "anchors": ["base/src/videos/base_video.rs:win_then_flag_all_mine", "base/src/videos/base_video.rs:loss_then_open_all_mine"]}
{"id": "C62", "title": "playback shows the game as it was", "statement": "For every analysed file and every event number i, going to event i shows the counters, solved 3BV, effective clicks and the visible board of the game after the events 0..i, and the cursor at the newest event not right of the board.", "quantifier": "every file, every event number", "why_tests_cant": "all files and playback positions", "anchors": ["base/src/videos/base_video.rs:analyse", "base/src/videos/base_video.rs:set_current_event_id", "base/src/videos/base_video.rs:get_game_board", "base/src/videos/base_video.rs:get_x_y"]}
{"id": "C63", "title": "recording loses no event and no time", "statement": "Each accepted mouse event of a running game is appended to the recording with its kind, its place and the time since the first event rounded to the nearest millisecond; refused events and events after the end are not recorded; falling back to the start forgets everything; with a clock that never goes back the recorded times start at 0 and never decrease.", "quantifier": "every history of calls and clock readings", "why_tests_cant": "all histories", "anchors": ["base/src/videos/base_video.rs:step", "base/src/miscellaneous.rs:time_ms_between"]}
{"id": "C64", "title": "is_guess_while_needless classifies a click as documented", "statement": "is_guess_while_needless(board, xy) on a position that some mine placement explains always answers 1..5: 5 exactly for an open cell; 1 only if the cell is certainly safe (and, for a cell next to a number with at most 55 border cells, always then); 3 only if some cell is certainly safe; 4 only if the clicked cell is certainly a mine; 2 only if nothing that bears on the cell (its covered region) is certainly safe. It leaves only correct marks on the caller's board.", "quantifier": "every position with an explanation, every cell", "why_tests_cant": "all positions and all placements explaining them", "anchors": ["base/src/algorithms.rs:is_guess_while_needless", "base/src/utils.rs:find_a_border_cell", "base/src/utils.rs:refresh_matrixses"]}
{"id": "C65", "title": "the opening probability is exact", "statement": "cal_is_op_possibility_cells(board, minenum, cells) answers for each listed unopened cell the probability, over all placements of minenum mines that explain the position, that neither the cell nor any of its neighbours is a mine (so that opening it opens an area), with an absolute error of at most 18 (N + 4000) * 2^-50 (N as in C33); the answers come in the order of the cells.", "quantifier": "every position with an explanation, every mine number, every list of cells", "why_tests_cant": "counting over all placements, for a product of conditional probabilities", "anchors": ["base/src/algorithms.rs:cal_is_op_possibility_cells", "base/src/algorithms.rs:cal_possibility_onboard"]}
{"id": "C66", "title": "every MVF content can be stored and is read back", "statement": "For every key, every level, mode, board of up to 255 x 255 cells with up to 65535 mines, 3BV, player and sequence of mouse records (places below 512, times below 1024 s in hundredths) there is an MVF file that parse_video reads back to exactly these contents; each record has exactly one coding for each choice of its two unused bits, whatever permutation of the 40 bits the key stands for.", "quantifier": "every key, every content", "why_tests_cant": "2^40 records under each of many permutations; arbitrary content", "anchors": ["base/src/videos/mvf_video.rs:parse_video"]}
{"id": "C67", "title": "high-risk guesses are marked", "statement": "Analysing a file with high_risk_guess adds a comment, with its probability, to exactly those events (from the third on) that opened at least one cell and whose cell is a mine in at least 51% of the mine placements that explain what the player saw; no other event gets this comment and the analysis never crashes.", "quantifier": "every file with a legal board, every event list", "why_tests_cant": "counting over all placements at every event of every game", "anchors": ["base/src/videos/analyse_methods.rs:analyse_high_risk_guess", "base/src/videos/base_video.rs:analyse_for_features"]}
{"id": "C68", "title": "hard deductions are marked", "statement": "Analysing a file with jump_judge adds the comment to exactly those left clicks that opened a cell which the listed safe cells of the elementary rules do not contain but those of the full enumeration do; such a cell is certainly safe for the player, and every certainly safe cell next to a number missed by the elementary rules and opened by a left click is marked when the border has at most 55 cells.", "quantifier": "every file with a legal board, every event list", "why_tests_cant": "all games and all placements explaining each position", "anchors": ["base/src/videos/analyse_methods.rs:analyse_jump_judge"]}
{"id": "C69", "title": "needless guesses are marked", "statement": "Analysing a file with needless_guess adds the comment to the left clicks that opened a cell which could have been a mine although a certainly safe cell was available.", "quantifier": "every file with a legal board, every event list", "why_tests_cant": "all games and all placements explaining each position", "anchors": ["base/src/videos/analyse_methods.rs:analyse_needless_guess"]}
{"id": "C70", "title": "jumps of attention are marked", "statement": "Analysing a file with vision_transfer adds the comment exactly to those events that opened a cell (or the first event of the file) whose next opening event lies at least seven cells (112 pixels at 16 pixels per cell) away although a cell certainly known to be safe was left within three rows and columns of the place left behind.", "quantifier": "every file with at least one event and a legal board", "why_tests_cant": "all games", "anchors": ["base/src/videos/analyse_methods.rs:analyse_vision_transfer"]}
{"id": "C71", "title": "the luck of a game", "statement": "Analysing a file with survive_poss stores at the last event the list of the mine probabilities of all left clicks that took effect after the first one and whose cell was a mine in some but not all explaining placements, in the order of the game.", "quantifier": "every file with at least one event, a legal board and the right mine number", "why_tests_cant": "all games, counting over all placements", "anchors": ["base/src/videos/analyse_methods.rs:analyse_survive_poss"]}
{"id": "C72", "title": "bent mouse paths are marked", "statement": "Analysing a file with mouse_trace compares between consecutive clicks the length of the recorded path with the straight distance and comments on the ratio as documented; float rounding changes the verdict only if the ratio is within one millionth of a threshold.", "quantifier": "every file with at least one event, 16-bit coordinates and fewer than 2^29 events", "why_tests_cant": "sums of square roots in floating point over arbitrarily long paths", "anchors": ["base/src/videos/analyse_methods.rs:analyse_mouse_trace"]}
{"id": "C73", "title": "flag-and-chord runs are praised", "statement": "Analysing a file with super_fl_local adds, at the first event of every run of flags and good double clicks, the number of its steps: a run begins with a flag, continues while each further event lies within four cells of the one before, ends with a left click, a bad double click or a jump, counts up to its last good double click (one that opens cells, none of its four neighbours opening more) and must have at least five steps; nothing else is marked and the analysis never crashes.", "quantifier": "every file with a legal board, every event list", "why_tests_cant": "an automaton over event histories of any length", "anchors": ["base/src/videos/analyse_methods.rs:analyse_super_fl_local", "base/src/utils.rs:is_good_chording"]}
{"id": "C74", "title": "the running clock", "statement": "On a recording object get_time shows 0 before the game, the time since the first action while flags are put, the time since the click that opened the first cell during the game (at most 1.5 ms behind and 0.5 ms ahead) and the result time afterwards; it never runs backwards; at the end it agrees with the result up to 1 ms; it can be read at any moment.", "quantifier": "every session (calls in any order) and every moment", "why_tests_cant": "all histories and clock readings, conversions between microseconds, rounded milliseconds and doubles", "anchors": ["base/src/videos/base_video.rs:get_time", "base/src/videos/base_video.rs:step"]}
{"id": "C75", "title": "click rates", "statement": "get_left_s, get_right_s, get_double_s, get_cl_s, get_flag_s and get_bbbv_s are the counter divided by the seconds played (result time after the game, running clock during it, playback position in playback), with a relative error of at most 2^-50 and 0 before the game; likewise get_ce_s, get_rqp and get_qg after a game.", "quantifier": "every session, every moment, every playback position", "why_tests_cant": "all histories; rounding of f64 quotients", "anchors": ["base/src/videos/base_video.rs:gather_params_after_game", "base/src/videos/base_video.rs:get_left_s", "base/src/videos/base_video.rs:get_cl_s", "base/src/videos/base_video.rs:get_bbbv_s", "base/src/videos/base_video.rs:get_ce_s", "base/src/videos/base_video.rs:get_rqp"]}
{"id": "C76", "title": "correctness, throughput and efficiency", "statement": "get_corr, get_thrp and get_ioe are the doubles nearest to ce/clicks, solved 3BV/ce and solved 3BV/clicks (0 for a zero denominator), so ioe = corr * thrp up to 2^-50; they are available exactly after a game and in playback, and never above 1.", "quantifier": "every session and playback position", "why_tests_cant": "all histories; rounding", "anchors": ["base/src/videos/base_video.rs:get_corr", "base/src/videos/base_video.rs:get_thrp", "base/src/videos/base_video.rs:get_ioe"]}
{"id": "C77", "title": "estimated time and STNB", "statement": "After a game get_etime is result time * 3BV / solved 3BV up to a relative error of 3 * 2^-51 (the result time when everything is solved), 0 if nothing is solved; get_stnb uses the documented constant of each standard level and is 0 on every other board.", "quantifier": "every session", "why_tests_cant": "all histories and boards; rounding", "anchors": ["base/src/videos/base_video.rs:get_etime", "base/src/videos/base_video.rs:get_stnb"]}
{"id": "C78", "title": "path length", "statement": "get_path is 0 up to the opening click; afterwards it is the length of the walk from the opening click through all positions on the board to the current one, in sixteenths of a cell, up to a relative error of one millionth; it never decreases while the pointer stays on the board; in playback of the saved game the walk starts at the press before the opening click.", "quantifier": "every session (calls in any order) of up to 2^28 events, every cell size", "why_tests_cant": "all histories; sums of square roots in floating point over arbitrarily long paths", "anchors": ["base/src/videos/base_video.rs:get_path", "base/src/videos/base_video.rs:step", "base/src/videos/base_video.rs:analyse"]}
{"id": "C79", "title": "3BV sampler", "statement": "sample_3BVs_exp(x0, y0, n) lays n expert boards (16x30, 99 mines, no mine at (x0, y0)) by the rule of laymine and returns, for every k below 382, how many of them have 3BV k; it never panics for a start cell on the board.", "quantifier": "every start cell, every n, every result of the shuffles", "why_tests_cant": "480 choose 99 boards and random shuffles", "anchors": ["base/src/algorithms.rs:sample_3BVs_exp", "base/src/algorithms.rs:laymine_study_exp", "base/src/utils.rs:cal_bbbv_exp"]}
{"id": "C80", "title": "probabilities of contradictory positions", "statement": "cal_possibility and cal_possibility_onboard accept every rectangular position, also one whose numbers contradict each other: error 1 exactly if no set of mines explains the numbers that touch covered cells; otherwise error 17 if there are more flags than mines, error 3 if every explanation needs more mines, and else an answer with one entry per border cell (per cell of the board); they never panic.", "quantifier": "every rectangular board whose blocks have at most 55 cells, every number of mines", "why_tests_cant": "all boards and contents, not only reachable ones", "anchors": ["base/src/algorithms.rs:cal_possibility", "base/src/algorithms.rs:cal_possibility_onboard", "base/src/utils.rs:cal_table_minenum_recursion"]}
{"id": "C81", "title": "probabilities with blocks beyond the enumeration limit", "statement": "On a position with blocks of more than 55 cells cal_possibility and cal_possibility_onboard answer exactly what they should answer for the position without the numbers that touch those blocks: their cells count as cells next to no number (so a mine or a safe cell that is certain there is not reported as such), all other blocks keep exact probabilities; errors 17 and 3 and the range of mine numbers also are those of that position; the last result is the size of the largest block.", "quantifier": "every rectangular explained position, blocks of any size, every number of mines", "why_tests_cant": "positions and explanations of unbounded size", "anchors": ["base/src/algorithms.rs:cal_possibility", "base/src/algorithms.rs:cal_possibility_onboard", "base/src/utils.rs:refresh_matrixs"]}
