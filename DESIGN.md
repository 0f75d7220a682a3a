# Formal model of ms_toollib in Rocq (Coq 8.16.1)

Sources: `/repo/base/src`. Model: `/verif/rocq/theories`. Properties: `properties.jsonl`; verdict per
property: `MANIFEST.json`; experiments with deliberately wrong programs: `seeded/LOG.jsonl`.

## Conventions of the model

* Rust panics (index out of range, `unwrap` on `None`, debug-mode integer underflow) are the value
  `Panic`; `Err(e)` is `Err e`; a fuelled loop that runs dry returns `OutOfFuel`. Theorems conclude
  `... = Ok ...`, so they also prove absence of panics and termination, or they say what happens.
* `Vec<Vec<i32>>` is `list (list Z)` (`board`); `usize` is `nat`; `i32` is unbounded `Z` except where
  the property is about 32-bit overflow (SafeBoard) or field widths (EVF codec), where the bound is
  explicit.
* `&mut` arguments become returned values; `for` loops become `foldM` over index lists; nested
  neighbourhood loops `max(1,i)-1..min(row,i+2)` become `zone`.
* Randomness (shuffles, masks) is an argument; theorems quantify over every random outcome.
* f64: the probability functions are modelled twice, with exact fractions (`Possibility.v`, `Features.v`) and in
  IEEE binary64 (`PossFloat.v`, `OpenFloat.v`, `FeatFloat.v`); the statistics are IEEE binary64 (`Stats.v`).
* `Model` files (`LayMine.v`, `Metrics.v`, `Refresh.v`, ...) hold only definitions with a citation of
  file and lines; `*Proofs.v` hold lemmas; `Props*.v` hold the property theorems, each closed with
  `exact lemma`, followed by `Print Assumptions`, with an `Example` showing a concrete non-trivial case.
  `Spec.v` is the independent vocabulary of the statements.

## Plan per property

| id | model | how proved |
|----|-------|-----------|
| C01, C51 | `LayMine.laymine`, shuffle = arbitrary permutation | loop invariant "mines of a set D are laid, other cells count D" |
| C02 | `LayMine.laymine_op` | same, with rank/skip lemma; refuted on 1-wide boards |
| C03 | `LayMine.cal_board_numbers` | loop invariant |
| C04 | `LayMine.shuffle_`, random words as a list | induction, multiset counting |
| C05-C08 | `Metrics.*` | DFS invariant, component representatives; 3BV: pigeonhole (lower bound) and explicit clicks (upper bound) |
| C09, C10 | `Refresh.refresh_board` | stack invariant, termination measure |
| C11-C19 | `MineBoard` state machine (minesweeper_board.rs) | invariants over event lists |
| C20-C22, C42 | EVF codec (`generate_evf_v0_raw_data`, `parse_video`) | round-trip by induction over fields, strings, bit packing, events |
| C23, C24 | `SafeBoard` | modular arithmetic; refutation for the row iterator |
| C25, C26 | `Board`, `GameBoard` caches | op-sequence invariants; refutations |
| C27-C32, C34, C35 | matrices and solvers | soundness w.r.t. all consistent assignments; counting bijections |
| C33, C65 | `cal_possibility`, `cal_possibility_onboard`, `cal_is_op_possibility_cells` with exact natural numbers and fractions (0/0 is NaN) | the tables count the solutions of each block (`EnumBlock.v`), sums over choices of table lines count the placements (`PossSums.v`), loops = sums (`PossCode.v`); the f64 program (`PossFloat.v`) follows the exact one step by step with a growing relative error (`PossFloatProofs.v`, `PossFloatMain.v`, `PossFloatPos.v`); opening probability: chain rule, safe marks restrict the placements; in f64 (`OpenFloat.v`) the absolute error grows by a fixed amount per factor (`PropsOpenFloat.v`) |
| C36, C60 | `unsolvable_structure`, `is_solvable`, `isVictory` | every pattern test proved equivalent to a geometric description; two placements that agree outside the place show that a guess is needed; the loop keeps a list of cells opened by logic as invariant |
| C61-C63 | end-of-game painting, playback position, recording | per-step description of the recorder; replay invariant (events 0..n, newest stream board) |
| C37, C38 | `laymine_solvable`; `laymine_solvable_thread`: eight workers, the mutex, the exit flag and the channel as a transition system, every interleaving | induction over the draws; invariant of the pool, decreasing measure, progress |
| C39 | `laymine_solvable_adjust`, `adjust_step`, the f64 quotient | induction on the recursion with counting invariants (`AdjustProofs.v`); Flocq for the quotient (`FloatQuot.v`); refuted where the flag is concerned |
| C64 | `is_guess_while_needless`, `find_a_border_cell` | region search invariant (visited cells closed); groups of blocks are independent of each other, so a verdict inside a group is a verdict about the position |
| C40, C41, C43, C44, C49 | `BaseVideo` bookkeeping | state machine, refutations |
| C45-C48 | remaining utilities | direct; refutations by witness. C47: the exact value of the fast 3BV on legal boards (`ExpSpec.v`, `ExpProofs.v`: loop invariants of both scans) and its comparison with the 3BV (`PropsExp.v`). C46: relative error of every `BigNumber` operation (`FloatNear.v`, `BigNumProofs.v`, `BigBinom.v`, Flocq) |
| C50, C66 | `OldVideos`: byte-level model of the AVF, RMV and MVF parsers; formats in `OldSpec.v` | a calculus of exact parsers (`OldLib.v`: accepted strings and results of sequences, loops, scans), of panics and of truncation (`OldSafe.v`); MVF: the key is a permutation of the 40 bits, bit fields written and read back (`OldMvfKey.v`, `OldMvfWrite.v`) |
| C52-C54 | `MineBoard` clicks | exact effect of one click in any reachable state |
| C55, C56 | EVF codec | prefix analysis of the reader; parse then encode |
| C57 | f64 time stamps (Flocq) | error analysis of one division and one multiplication |
| C58, C59 | `BaseVideo.step` against `analyse`; the recorded result time | simulation between the live machine and the replaying one |

| C67-C71, C73 | `Features`: `analyse_for_features` and its passes | the recorded boards are those of the game (`FeatReplay.v`), their marks leave the set of explaining placements unchanged (`MarkWorlds.v`), so each pass computes counts over the placements (`FeatProofs.v`, `FeatSem.v`); the luck of a pass stated per event; C73: the flag-chord machine as an invariant over runs of events (`FLRun.v`) |
| C67, C69, C71 in f64 | `FeatFloat` | relative error of the stored probabilities from C33 (`PropsPossFloat.v`); comparisons with 0 are exact, those with 0.51 and 1 up to that error; the luck product as in C65 |
| C74-C77 | `Stats`: the f64 getters of `BaseVideo` over whole sessions (calls in any order, clock readings) | an invariant of sessions relating result time, stored speeds, counters and clock (`StatsProofs.v`); error bounds from Flocq; the claims that are false of the code are refuted by a concrete session (`PropsStats.v`) |
| C78 | `PathFloat`: `get_path` and the f64 path of an event, folded over the moves (`r_hops`) kept by `BaseVideo` | invariant of the log of a session: the moves of an event are those of the walk through the positions on the board (`PathProofs.v`); rounding errors of sums of square roots as in C72; what fails outside the board is shown by a concrete game |
| C72 | `mouse_trace` in IEEE-754 doubles | relative error of sums of square roots and of a quotient (`FloatTrace.v`, Flocq) |
| C79 | `Sample`: `sample_3BVs_exp`, `laymine_study_exp`, every shuffle an arbitrary permutation | the array writes of the sampler build the same arrangement as `laymine`; the tallies are counts (`SampleProofs.v`) |
| C80 | `cal_possibility`, `cal_possibility_onboard` on arbitrary boards | every block either has a table or no solution (`RobustProofs.v`, from `block_table_tight`); the rest of the function does not need a solution of the whole board; `RobustFloat.v`, `OpenTotalFloat.v`: the f64 program makes the same decisions (and C65 on every position, `OpenTotal.v`) |
| C81 | `cal_possibility`, `cal_possibility_onboard` with blocks of more than 55 cells (exact fractions) | `BigBlocks.v`: the blocks that are kept are those of the position `h` without the numbers of the oversized blocks; the sums of `PossSums.v` and `PossCode.v` are over any list of blocks, so the counting of `PossMain.v` carries over to `h`; `BigBlocksFloat.v`: the f64 program, through `posterior_sim` of `PossFloatMain.v` |

## Trusted base

* Coq 8.16.1 kernel (and `vm_compute` for the concrete `Example`s and refutation witnesses).
* `Print Assumptions` of every property theorem says "Closed under the global context" (no axioms),
  with these exceptions: the theorems of `FloatTime.v` (C57), `PropsAdjust.v` (C39, through `FloatQuot.v`),
  `PropsBigNum.v` (C46), `PropsPossFloat.v`, `PropsOpenFloat.v`, `RobustFloat.v`, `OpenTotalFloat.v` and `BigBlocksFloat.v` (C33, C65, C80, C81, except the theorems of `PropsPoss.v` and `PossBoard.v`), `PropsFeatures.v`, `PropsFeatFloat.v`, `PropsTraces.v`, `PropsMouse.v` and `PropsFL.v` (C67-C73, and `PropsStats.v`, `PropsPath.v`, C74-C78, because `Features.v` holds IEEE-754
  distances). They use Flocq over the standard library's real numbers and depend on these standard library axioms:
  `ClassicalDedekindReals.sig_forall_dec`, `ClassicalDedekindReals.sig_not_dec`,
  `FunctionalExtensionality.functional_extensionality_dep`, `Classical_Prop.classic`.
  No axiom is declared in `/verif`, and no other library's axioms are used.
* The reading of the Rust source (the model is hand written; nothing is executed). Debug-build
  semantics: integer underflow panics. Additions to `usize` counters do not overflow in the model.
* Memory exhaustion and stack overflow are not modelled.

## What is modelled

| file of the model | code |
|---|---|
| `LayMine.v` | utils.rs: `laymine`, `laymine_op`, `cal_board_numbers`, `get_random_int`, `shuffle_` |
| `Metrics.v` | utils.rs: `infect_board`, `cal_op`, `cal_isl`, `cal_bbbv`, `cal_cell_nums`, ... |
| `Refresh.v` | utils.rs: `refresh_board` |
| `MineBoard.v` | minesweeper_board.rs: the whole game state machine |
| `Solvable.v` | utils.rs: `unsolvable_structure`; algorithms.rs: `isVictory`, `is_solvable` |
| `Generate.v` | algorithms.rs: `laymine_solvable`, `laymine_solvable_thread` |
| `Blocks.v` | utils.rs: `refresh_matrixses` |
| `Guess.v` | utils.rs: `find_a_border_cell`; algorithms.rs: `is_guess_while_needless` |
| `Possibility.v` | algorithms.rs 218-545: `cal_possibility`, `cal_possibility_onboard`, `cal_is_op_possibility_cells` (exact numbers instead of BigNumber/f64; specification in `PossSpec.v`) |
| `Adjust.v` | algorithms.rs: `laymine_solvable_adjust` and its helpers (`adjust_the_area_on_board` in utils.rs) |
| `Matrix.v`, `Solve.v` | utils.rs: `refresh_matrix`, `refresh_matrixs`, `combine`, `chunk_matrix`, enumeration tables; algorithms.rs: `solve_minus`, `solve_direct`, `solve_enumerate`, `mark_board`, `is_able_to_solve`, ... |
| `Sample.v` | algorithms.rs 1069-1130: `sample_3BVs_exp`, `laymine_study_exp` |
| `SafeBoard.v`, `BoardCache.v` | safe_board.rs; board.rs (`Board`, `GameBoard` caches) |
| `Utils.v` | utils.rs: `legalize_board`, `C`, `C_query`, `cal_bbbv_exp`, `is_good_chording` |
| `Evf.v` | base_video.rs: byte readers, `generate_evf_v0_raw_data`, `set_checksum`, `get_checksum`, `get_raw_data`; evf_video.rs: `parse_video` |
| `BaseVideo.v` | base_video.rs: `new_before_game`, `reset`, `set_board`, `step`, `analyse`, playback, setters, getters, end-of-game display |
| `OldVideos.v` | avf_video.rs, rmv_video.rs, mvf_video.rs: `parse_video` (the f64 text of the avf time and the numbers of the mvf key are parameters; times in exact milliseconds) |
| `SaveFile.v` | base_video.rs: `save_to_evf_file` (file system as a list of files), `is_valid` |
| `FloatTime.v` | miscellaneous.rs: `s_to_ms`; the `/ 1000.0` conversions (IEEE binary64) |
| `Features.v` | analyse_methods.rs (all seven analyses, with the crash conditions); base_video.rs 582-631 (`analyse_for_features`); board.rs 102-142. The probabilities are exact fractions (see `Possibility.v`), the distances are IEEE doubles; comments are constructors instead of texts |
| `FloatQuot.v` | algorithms.rs 940 (IEEE binary64) |
| `BigNum.v` | utils.rs 641-733: `BigNumber`, `C` (IEEE binary64) |
| `PossFloat.v` | algorithms.rs 218-490: `cal_possibility`, `cal_possibility_onboard` with BigNumber and IEEE binary64 |
| `OpenFloat.v` | algorithms.rs 510-545: `cal_is_op_possibility_cells` (IEEE binary64) |
| `FeatFloat.v` | analyse_methods.rs, base_video.rs 603-631, board.rs 102-142 again, with IEEE binary64 probabilities, comparisons and products |
| `PathFloat.v` | base_video.rs 880-884, 529-534 (the f64 path), 1532-1541 |
| `Stats.v` | base_video.rs 160-200, 997-1015, 1153-1169, 1435-1668 (IEEE binary64): `get_time`, `get_left_s` ... `get_flag_s`, `get_bbbv_s`, `get_ce_s`, `get_corr`, `get_thrp`, `get_ioe`, `get_etime`, `get_stnb`, `get_rqp`, `get_qg`; `powf` is a parameter. Not modelled: `get_ops`/`get_isls` solved counters (always 0 in the code); `get_path` is in `PathFloat.v` |

Floating point is modelled exactly only in `FloatTime.v`, `FloatQuot.v`, `BigNum.v`, `PossFloat.v`, `OpenFloat.v`, `FeatFloat.v`, `Stats.v`, `PathFloat.v` and the distances of `Features.v`; `Possibility.v` computes with exact
numbers. Not modelled: Python/wasm/C bindings, OBR (image recognition),
files and clocks of the operating system except
as explicit arguments.
