# Formal model of votess in Rocq/Coq 8.16.1

## 1. Approach

One executable Gallina model of the library, written function by function from
/repo, and theorems about it.

* **Numbers.** All floating point code is written once over a record `Arith`
  (carrier, `+ - * /`, `<`, `<=`, `==`, int conversion, floor-to-int, fmod,
  infinity).  Three instances: exact rationals with infinity (`arithQ`,
  executable), exact reals with infinity (`arithR`), and IEEE binary32
  (`arith32`, built on Flocq).  Purely structural theorems (permutation,
  frames, termination, schedules, memory safety) hold for *every* `Arith`, so in
  particular for floats with NaN.  Geometric theorems are stated for every
  `Arith` whose operations are exact (`Exact`), with geometry expressed over
  the real numbers; rounding is outside these theorems, and this is stated
  where it matters.  C62, C79, C80 and C82-C85 are about binary32 itself; C82-C85 give the
  exact geometry back under a condition on the points.
* **Memory and threads.** The per-cell kernels (`heap::*`, `knni::compute`,
  `boundary::compute`, `cci::compute`) are programs in a small free monad
  (`Prog.v`: return, fail, one read, one write) on the flat arrays the code uses,
  with the code's own address arithmetic.  Running them sequentially (`run`),
  running them confined to a set of addresses (`run_in`), and running several of
  them interleaved by an arbitrary schedule (`pool_run`) are three interpreters
  of the same program text.
* **Undefined behaviour** is a distinct outcome (`EUB`), as are C++ exceptions
  (`EThrow`) and non-termination (`EDiverge`, fuel exhausted).  A theorem that a
  call "returns" therefore excludes all three.
* **Integers.** `Z`, with explicit wrap-around where the code narrows
  (`uint8_t` plane labels, `unsigned short` sizes and k) and explicit overflow
  checks where `int` products size buffers.

## 2. Trusted base

* Coq's kernel (8.16.1, including its VM, which `vm_compute` uses in examples and
  refutation witnesses; `coqchk` re-checks the compiled files without the VM).
* The hand translation of /repo into the `M*.v` files and the meaning given to
  arrays, threads and integers above.  Every definition there cites the lines it
  models.
* The `Spec*.v` files and the statements in `Props*.v`: these have to be read to
  know what is proved.  `P*.v` need not be read: every definition a statement uses is in
  a model or `Spec*.v` file (points of examples aside).
* No axiom, parameter, admitted proof, functor or module type of our own, no
  plugin; libraries used: Coq's standard library, and Flocq for binary32 only
  (`Arith32.v`, `MRead.v`, `MFloatArg.v` and the files about single precision; Flocq adds no axiom).
* For the command line only: `MGetopt.v` (GNU getopt_long) and `MRead.v` (reading a
  float from a stream, std::getline) model library functions from their
  documentation, since their source is not in /repo.
* Axioms of the standard library, per theorem of MANIFEST.json, as printed by
  `Print Assumptions` (each `Props*.v` prints them when it is compiled):

  * **no axiom** ("Closed under the global context") — 122 theorems:
    `C01_sort_permutes`, `C02_ids_sorted_and_matching`, `C03_offsets_delimit_cells`,
    `C04_sort_idempotent`, `C04_sort_stable`, `C06_refuted`, `C07_maxheapify`,
    `C07_maxheapify_any_values`, `C08_sort`, `C09_device_layout`, `C09_host_layout`,
    `C09_layouts_agree`, `C16_boundary`, `C17_repeated_label_refuted`,
    `C17_terminates`, `C18_capacity_256_refuted`, `C18_small_capacities`,
    `C19_device`, `C19_host`, `C20_row`, `C21_refuted`, `C24_chunks`,
    `C25_thread_ranges`, `C26_any_interleaving`, `C26_disjoint_tasks`,
    `C26_no_race`, `C27_settings`, `C28_fuel`, `C28_returns`, `C28_rounds`,
    `C29_one_point_refuted`, `C29_overflow_refuted`, `C30_jagged_array`,
    `C30_jagged_array_builds`, `C30_rows_recorded`, `C31_lines_readable`,
    `C31_print_partial`, `C31_print_shown`, `C31_refuted`, `C31_savetxt_partial`,
    `C31_savetxt_shown`, `C31_shown_iff`, `C32_bool_roundtrip`, `C32_int_roundtrip`,
    `C32_out_of_range_throws`, `C32_wrong_form_throws`, `C33_defaults`,
    `C33_documented_default_refuted`, `C33_last_assignment_wins`,
    `C33_unknown_key_throws`, `C34_float_roundtrip_partial`, `C34_float_truncated`,
    `C34_refuted`, `C35_byte_is_its_flags`, `C35_sequences`, `C35_set_false`,
    `C35_set_true`, `C36_device_ignored`, `C36_refuted`, `C37_recompute_refuted`,
    `C37_states_refuted`, `C38_chunks_partial`, `C38_group_size_throws`,
    `C38_refuted`, `C39_beyond_refuted`, `C39_wrap_refuted`, `C42_minmax_int`,
    `C42_swap`, `C43_rejects`, `C43_runs`, `C44_count_refuted`, `C44_fits_returns`,
    `C44_offsets_overflow`, `C44_overflow_refuted`, `C45_refuted`, `C52_refuted`,
    `C54_parameters`, `C56_summary`, `C57_refuted`, `C58_assignments`, `C58_floats`,
    `C58_rejects`, `C60_refuted`, `C61_necessary`, `C61_refuted`, `C62_any_rows`,
    `C64_refuted`, `C65_messages`, `C65_quiet`, `C65_rejects`, `C65_report`,
    `C65_same_run`, `C65_stdout`, `C66_documented`, `C66_every_line`, `C66_refuted`,
    `C66_spelled`, `C67_refuted`, `C78_call_needs`, `C78_negative_throws`,
    `C78_sort_ends_iff`, `C86_integral`, `C86_no_number`, `C93_assign`, `C93_call`,
    `C93_made`, `C93_negative`, `C93_past`, `C93_positions`, `C94_default_refuted`,
    `C94_negative_refuted`, `C95_count`, `C95_get`, `C96_bool`, `C96_int`,
    `C96_one_number`, `C96_option`, `C96_threads`, `C97_call`, `C97_file`,
    `C97_result`, `C97_returns`
  * `ClassicalDedekindReals.sig_forall_dec`, `FunctionalExtensionality.functional_extensionality_dep` — 78 theorems:
    `C02_cell_is_geometric`, `C05_exact`, `C06_exact`, `C07_exact_order`,
    `C100_harmless`, `C100_planes_refuted`, `C100_refuted`,
    `C100_triangles_refuted`, `C10_knn_exact`, `C11_grid_independent`,
    `C12_padding`, `C13_bisector_separates`, `C13_bisector_zero_iff_equal`,
    `C14_intersect_any_order`, `C14_intersect_any_scale`,
    `C14_intersect_unique_point`, `C15_security_radius`, `C22_call_returns`,
    `C22_neighbours_touch`, `C23_equal_points_refuted`, `C23_faces_reported`,
    `C29_rows_complete`, `C37_device_rows`, `C37_zero_states`, `C40_symmetric`,
    `C41_cell`, `C42_minmax2`, `C42_minmax3`, `C42_radius_update`,
    `C46_never_stuck`, `C47_capacities`, `C48_exact_neighbours`,
    `C49_recompute_exact`, `C50_recompute`, `C50_rows_distinct`,
    `C51_generic_symmetric`, `C51_refuted`, `C52_canonical`, `C52_order_free`,
    `C53_device_exact`, `C55_defaults`, `C55_end_to_end`, `C59_refuted`,
    `C59_sorted_copy`, `C59_sorted_input`, `C64_warned`, `C65_silent`,
    `C71_all_cells`, `C71_rows_bound_cells`, `C72_faces_positions`, `C73_paths`,
    `C74_nearest_first`, `C74_sorted`, `C75_locality`, `C76_cube_symmetry`,
    `C77_any_k`, `C77_validated_canonical`, `C81_rows`, `C81_same`, `C85_unique`,
    `C86_refuted`, `C87_fits`, `C87_flagged`, `C87_flagged_row`, `C87_short`,
    `C88_nineteen`, `C88_refuted`, `C89_exactly`, `C89_when`, `C90_lattice_cuts`,
    `C90_recompute`, `C91_flags`, `C91_own`, `C98_exact`, `C98_exact_locate`,
    `C98_table`, `C99_exact_removal`, `C99_tables`
  * `ClassicalDedekindReals.sig_forall_dec`, `ClassicalDedekindReals.sig_not_dec`, `FunctionalExtensionality.functional_extensionality_dep` — 7 theorems:
    `C83_certificate`, `C85_test`, `C90_cuts`, `C90_device`, `C90_lattice`,
    `C90_spread`, `C92_line_cuts`
  * `ClassicalDedekindReals.sig_forall_dec`, `ClassicalDedekindReals.sig_not_dec`, `Classical_Prop.classic`, `FunctionalExtensionality.functional_extensionality_dep` — 77 theorems:
    `C05_float32_exactly`, `C05_float32_partial`, `C05_refuted`,
    `C06_float32_partial`, `C07_float_order`, `C100_single`, `C100_single_refuted`,
    `C62_float32_recompute`, `C62_float32_rows`, `C62_refuted`, `C63_extra_refuted`,
    `C63_missing_refuted`, `C63_nearest_refuted`, `C63_reached_refuted`,
    `C63_stuck_refuted`, `C64_warned_float32`, `C68_nearest`, `C68_open`,
    `C68_refuted`, `C68_rounded`, `C69_nine_digits`, `C70_text_to_text`,
    `C78_zero_refuted`, `C79_lattice`, `C79_nearest`, `C79_recompute`,
    `C79_separated`, `C80_device_rows`, `C80_nearest`, `C80_zero_states`,
    `C81_single_nearest`, `C81_single_same`, `C82_all`, `C82_device`,
    `C82_device_recompute`, `C82_line`, `C82_recompute`, `C82_robust`,
    `C83_as_exact`, `C83_checked`, `C83_contact`, `C83_generic`, `C83_neighbours`,
    `C83_order_free`, `C83_row`, `C83_symmetric`, `C84_api`, `C84_core`,
    `C84_python`, `C84_readme`, `C84_text`, `C85_as_exact`, `C85_device`,
    `C85_power_of_two`, `C85_readme`, `C85_rows`, `C85_same`, `C86_exponent`,
    `C86_leading`, `C86_python`, `C86_switch`, `C86_threads`,
    `C86_truncates_partial`, `C86_value_partial`, `C92_call`, `C92_default`,
    `C92_device`, `C92_few_cuts`, `C92_line`, `C92_spread`, `C92_spread_cuts`,
    `C98_device`, `C98_single`, `C99_devices_removal`, `C99_devices_symmetry`,
    `C99_removal`, `C99_symmetry`

  `sig_forall_dec` and `functional_extensionality_dep` come with the standard
  library's real numbers; `classic` and `sig_not_dec` come in through Flocq's use
  of the classical part of the library.

## 3. What is modelled, what is not

| code | model |
|----|----|
| src/utils.ipp, planes.ipp, sradius.ipp, status.ipp | `MUtils` |
| src/heap.ipp (three layouts) | `MHeap` |
| src/xyzset.ipp | `MXyz` |
| src/knn.ipp (host, device) | `MKnn` |
| src/boundary.ipp (host, device) | `MBoundary` |
| src/cc.ipp (host, device, device strided) | `MCell` |
| src/dnn.ipp, tmpnn_* of src/votess.ipp | `MDnn` |
| class dnn and proxy with positions of any sign, constructors, assignment | `MIndex` |
| include/arguments.hpp | `MArgs`; floats and doubles that are not integral: `MFloatArg` |
| src/votess.ipp: CPU, GPU, recompute, tesellate | `MTess` |
| src/main.cpp:60-230 | `MMain` |
| text written to stdout and stderr by tesellate and main.cpp | `MConsole` |
| getopt_long with the tables of src/main.cpp:90-110 | `MGetopt` |
| `iss >> float`, std::getline of src/main.cpp:207-212 | `MRead` |
| src/pybind11/pyvotess.cpp | `MPy` |

Simplifications, also stated at the definitions:

* Template instantiations: index type int, real type float (abstracted to
  `Arith`), label type uint8_t, which is what the command line and the Python
  module use.
* Memory of the parallel phases is sequentially consistent and each access of a
  kernel is one step.  C26_no_race shows that the CPU tasks touch disjoint cells,
  so a weaker memory model would give the same results.
* Not modelled: opening files (a function from names to texts), the diagnostics
  getopt_long prints by itself, the text of print_device (a parameter), what a run
  that does not return has printed, pybind11 itself apart from its conversion rules
  (stated in `MPy`), the SYCL runtime apart from buffers, nd_range divisibility,
  uninitialised memory and an arbitrary interleaving of work items; std::thread
  creation failures and out-of-memory exceptions; CMake, tests, the
  disabled `#if` branches of main.cpp.
* tesellate converts its parameters at several places; the model converts them all
  before the drivers start, so only the time of an exception differs.
* Rounding: the geometric theorems (C05_exact, C10-C15, C22, C23, C29, C37, C40,
  C41, C46-C53, C55, C59, C71-C77, C87-C91) are about exact arithmetic.  For binary32 there are separate
  results where something was proved or refuted (C05, C06, C07, C62-C64, C68-C70, C78-C85, C92, C98-C100).

Checks of the model against the source: `Conform` evaluates the model on the inputs of
the repository's unit tests (planes, util, status, heap, boundary, arguments, xyzset)
and checks their assertions; it says which cases are left out.  Nothing of /repo was
compiled or run.

## 4. Files (rocq/theories)

Model: `Base`, `Arith`, `Prog`, `M*`, and the instances `ArithQ`, `ArithR`,
`Arith32`.  Specifications used in statements: `Exact`, `Spec*`.  Proofs: `P*`.
Property theorems and their examples: `Props*`, statements with `exact` and
`Print Assumptions`.  `Conform`: the repository's unit tests on the model.

## 5. Method per property

| id | model / proof |
|----|----|
| C01-C04 | radix sort as counting passes on lists; stable-sort spec; permutation, sortedness, stability by induction over passes (invariant: sorted by the low bytes) |
| C05 | exact arithmetic: floor bound; binary32: monotonicity of rounding, exact criterion per resolution, counterexample by computation (refuted) |
| C06 | definitional loop + binary32 NaN witness (refuted for NaN, proved for ordered values) |
| C07-C09 | generic address function, view of the row as list; induction on the heap path; relocation lemma (a program run at another layout) |
| C10-C12 | loop invariant of shell search: heap = k best of scanned prefix; geometric lemma for unscanned cells |
| C13-C15 | real algebra (nra/field) |
| C16-C18 | pure refinement of boundary::compute; invariant "cycle = boundary of accepted triangles"; wrap-around analysis for capacity >= 256 |
| C19 | confined interpreter; structural lemma for each kernel |
| C20,C21 | final filter phase; overflow witness by computation |
| C22,C23,C40,C41 | refinement of cci::compute to a pure cell clipper (`PCell`), invariant: closed oriented surface + feasibility + support property (`PGeomPoly`); degenerate cases by cones of directions (`PGeomCone`) |
| C24-C27 | arithmetic of ranges; disjoint-footprint theorem for arbitrary schedules; relational corollary |
| C28,C29,C39,C45 | recompute loop as a state machine (`rec_run`); refutations by witnesses or for all inputs |
| C30,C31 | list model of dnn and its printers; the exact text for every table by following the offset counter (`PShown`) |
| C32-C34 | decimal printing / istream parsing on strings, assoc-list of parameters |
| C35,C42 | bit and order lemmas |
| C36,C43 | command line driver as a function of options and file lines |
| C37,C38 | the kernels are parametrised by layout, so the device version is the same program at another layout; lockstep of host and device k-NN (`PLock`); chunk stride witness |
| C44 | explicit 32-bit checks at buffer allocation |
| C46-C49 | see below |
| C50 | the filter keeps a candidate only if a final vertex lies on its plane and the vertex's triangle carries its label; equal planes are never both cut in (`PDistinct`) |
| C51, C52 | exact rows (C48, C49) are determined by the point set if touching cells share a face (`PCanon`); witnesses on a circle |
| C53 | C37 transfers C48 to the device (`PGpuExact`) |
| C58-C60 | the module's `__setitem__`, call and `__getitem__` as functions on Python values; reduction to C54/C55; sequence iteration as repeated `__getitem__` |
| C61 | a predicate on programs, `must B`: every path to a normal return makes an access in B; with a memory that lacks B no schedule returns (`PNeed`) |
| C62 | the k-NN invariant of C10-C12 without geometry, over any arithmetic with a weak order on the distances (`PKnnAny`); squared distances in the cube are finite floats (`PDist32`); the filter keeps an ordered sub-list |
| C63 | witnesses found by running an extracted copy of the model on random floats, checked here by computation in Flocq's binary32; the geometry of each by linear real arithmetic |
| C64-C67 | the two streams as strings beside the result (`MConsole`); validity of sorted ids and offsets (C01-C04) shows that only oops1 can fire; getopt_long as a function on words, correct for every spelling by induction (`PGetopt`) |
| C68, C69 | numerals as sign, digits, exponent with their real value; the scanner returns numerator and power of ten; Flocq's division rounds the quotient correctly (`PRead`); nine digits: nearest float within half an ulp (`PReadLine`) |
| C70 | composition of C66, C68, C62, C65 (`PReadRun`) |
| C71-C77 | consequences of `exact_row` (C48, C49), which now says that the listed bisectors bound the cell: move from a face point towards q (C72), the ball over pq (C72-C74), induction over the number of shorter pairs (C73), transport of `common_face` (C75-C77) (`PDet`) |
| C78 | the sort's failures are exactly those of the cell ids and of the offset array (`PRes`); binary32 division by infinity and by -1 for the resolutions 0 and -1 |
| C79 | the search ends with a shell bound above the worst distance kept (`PKnnAny.knn_exit`); relative error analysis of cell coordinates, wall distances, shell bound and squared distances over Flocq (`PNear32`); candidate lists followed through the run (`PRowsNear`) |
| C80 | lockstep over any arithmetic in which selecting by 0 and 1 is exact (`PLock.View`), instances for exact arithmetic and binary32 (`PGpu32`) |
| C81 | recompute reads three flags of the first states (`recompute_same`); `rec_core_any`: the invariant of C29 from any initial states, for the cells whose bit 0 is their own |
| C82 | real error bounds for sums and products (`PErrReal`), for the float operations of a slot (`PErr32`), for one plane against one corner (`PErrBis`, `PErrReach`); the float walk and the exact walk stay in step while every comparison has a margin (`PRobust.walk_lock`); room and no failure (`walk_room`); calls (`PRunDone`, `PRobustRun`); a family that meets the condition (`PRobustLine`) |
| C83 | in robust position the walls through a point of a cell are independent, so a step into the interior of any one of them exists: touching cells share a face (`PRobustFace`); with C82 the rows are the face neighbours, then as C52 (`PRobustCanon`); integer determinants against the margin, orders of three walls (`PCert`) |
| C84 | C83 with the order of the points (`PSort32`: the cells of the floats are floors of rounded quotients), rows non-empty, hence the exact text; then as C55, C59, C70 (`PRobustText`); README points by the test of C83 |
| C85 | computed squared distances are within 2^-20 of the real ones (C79), so apart distances are ordered alike; a row sorted by distinct distances is unique; cells by floors, division by a power of two is exact (`PRobustOrder`) |
| C86 | the six digits of `oss << x` are Flocq's round-to-nearest-even in radix 10 with precision 6; istream's int reader stops at the point or the `e` (`PFloatArg`) |
| C87 | a closed connected triangulated surface with L labels has at least 2 L - 4 triangles, by unfolding it along a spanning tree and counting steps (`PEuler`); every face of a validated cell is a label (`PCap`) |
| C88 | C87 at the defaults; the faces of a 14-point witness by a test in integers (`PCapEx`) |
| C89 | the number of triangles is also at most 2 L - 4: a cut removes an open disc and adds a fan, Euler's bound for the mirrored disc (`PEulerCut`); a plane is kept exactly for each cutting candidate; the failing step is repeated with room (`PWhen`) |
| C90 | a cell among all points nearer than 2 r lies within r of its point (`near_cell`), so no further point cuts it; slot facts of C89, rounds of recompute that never overflow (`rec_calm`); lattices: the cell is a cube after the points next to it (`PSpread`) |
| C91 | buffers never shrink from round to round and the last flag was set with all points as candidates (`rec_grown`); then the slot facts of C89 (`POwn`) |
| C92 | the float walk stays in step with an exact one (C82), so a float cut is an exact cut by points sorted up to 2^-20, and the number of planes is 6 plus the cuts (`walk_few`, `PFew32`); rounds of recompute that never overflow (`PFewRun`); on a line a second point on the same side cuts nothing |
| C93-C94 | sums of row lengths, `concat` of an updated list; positions modulo 2^64; witnesses by computation (`PIndex`) |
| C95 | bits of `lor` and `shiftl`; eight values of the byte (`PVst`) |
| C96 | splitting a text into blanks, sign and digits is unique; the reader by induction over each part (`PWord`) |
| C97 | threads with empty ranges do nothing under any schedule; the sort by C78 (`PEmpty`) |
| C98 | on the way from a point to a place outside its cell the first bisector met is that of a touching cell, so of a listed one; a step over a face; well-founded walks (`PDiagram`) |
| C99 | face neighbours are a notion of the set: isometries carry faces over; a face that appears lies where the removed point was nearer, and the first bisector met on the way there is that point's (`PUpdate`, `PMixed`) |
| C100 | refuted by three points and 256 planes or 65536 triangles; below that the conditions on sufficient buffers are monotone and the rows canonical (C52, C99) (`PRoom`) |
| C54-C57 | parameters: last assignment (C33) then the round trip through text (C32); counting by induction (`PApi`); witness for C57 |

C46-C49 (`PTopo`, `PTopoCut`, `PPerturb`, `PNoFail`, `PNoFailApi`): the surface of
a cell is a list of oriented triangles of plane labels.  Invariant of a clipping
history: besides C41's, (a) for arbitrarily small outward moves of the planes
the same triangles are the vertices of a simple polytope (`psurf`; this replaces
general position), and (b) every labelling of edges by bits whose sum over
each triangle is 0 is the difference of a labelling of the planes
(`potential`; this is simple connectedness mod 2, it holds for the cube and survives a
cut).  In a simple polytope every vertex that is not the top in a given direction has a
higher neighbour and there is one top, so the removed and the kept triangles are
each connected through shared edges (`parts_conn`).  With (b) the boundary
between two connected parts is in one piece, so there always is a
removed triangle whose merging keeps the cycle simple: boundary::compute never gets
stuck.  Counting gives at most 8 + 2 m triangles after m cuts.

## 6. Findings about the code

Refuted properties (each with a machine-checked witness or a proof for all inputs;
theorems named `*_refuted`):

* C05/C06: binary32 rounding of `x * gr` can give cell index gr for x < 1; NaN
  passes the validity check.
* C17/C18: with p_maxsize >= 256 the label 255 collides with the "undefined" mark
  of boundary::compute, so such capacities do not work.
* C100: so raising cc_p_maxsize to 256 spoils rows that were right, with recompute too;
  cc_t_maxsize 65536 is narrowed to 0 and cc_p_maxsize 65542 to 6, with the same effect.
* C21: after a capacity error the row is returned unfiltered (all k candidates).
* C23: of two points at the same position neither lists the other.
* C29: an overflow in the last recompute round is not retried; one point with
  use_recompute is undefined behaviour (k becomes 0).
* C31, C34: text forms that do not round-trip (see the theorems); behind an empty row all
  entries are written in one row.
* C33: README.md:132 gives false as default of dev_suppress_stdout; it is true.
* C86: a fractional parameter value is stored as text with six digits and read up to the
  point or exponent: 0.00001f as k means 1, the float before 3 means 3.
* C88: the default cc_t_maxsize 32 is too small for every cell with 19 faces or more (walls of
  the cube count); such cells are flagged and their rows are no neighbour lists.  14 points suffice,
  13 do not (C55_defaults).
* C36: the command line ignores the device option; every run is a CPU run.
* C37: the device state buffer is never initialised, so returned states (and which
  rows recompute repairs) depend on leftover memory.
* C38: with chunking the device reads reference points with the stride of the chunk;
  a chunk size that is not a multiple of gpu_ndsize throws.
* C39: k is narrowed to 16 bits in the cell stage; k = 65536 m examines no candidate; other
  k > 65536 mix up the rows of different slots.
* C44: buffer sizes are computed in int; with default parameters they overflow from
  16777216 points on.
* C45: k = 0 reads out of bounds for every non-empty input.
* C51/C52: for cospherical points two cells that touch in a segment or point may be
  listed on one side only, and which ones depends on the order of the input.
* C57: with use_recompute the printed number of cells that missed their security
  radius is too large, because each round clears the flags of all cells.
* C59: the Python module sorts a copy of the points; the returned indices refer to an
  order the caller never sees.  (Its default device is the GPU when built with one;
  in C++ it is the CPU.)
* C60: a Python `for` over a row never ends by itself: `__getitem__` does not check the
  index.
* C94: d[i][-1] in Python is the last entry of the row before; size() of an unfilled dnn is
  2^64 - 1.
* C61: grid resolution 0, k = 0, p_maxsize < 6, t_maxsize < 8, no thread, resolution
  above 1290 are undefined behaviour instead of exceptions.
* C62: with k >= n in single precision a row can list point 0 several times.
* C63: in single precision neighbours can be missing or extra without any flag, a farther
  point can be taken for the nearest, two points can give infinite_boundary, and a cell
  with security_radius_reached can be incomplete.  C82 is a condition that excludes all this,
  C83_certificate a test for it.
* C78: at resolutions 0 and -1 every call with a point in the open cube writes past the offset
  array; test/xyzset.cpp runs resolution 0 and does not notice.  Below -1 the sort throws.
* C64: points outside the cube are used as indices (sort) before they are reported.
* C66: the help text offers --gridres, the program accepts --grid-resolution only.
* C67: --help and --version end with an error and status 1; no version is printed.
* C68: 0.99999999 is read as 1.0f, a point outside the grid: undefined behaviour.

Others visible in the model: for k > n-1 the k-NN rows are padded
with index 0 at infinite distance.

