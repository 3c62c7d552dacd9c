{"id": "C01", "title": "Grid sort only permutes the caller's points", "statement": "After xyzset::sort (and hence after tesellate, which sorts the caller's vector in place) the vector holds exactly the same points with the same multiplicities, in some order; no point is lost, duplicated or altered.", "quantifier": "every point vector, every grid resolution and every assignment of points to non-negative cell ids", "why_tests_cant": "Tests sort a handful of fixed clouds; a counting-pass error can depend on the histogram of id bytes.", "anchors": ["src/xyzset.ipp:sort"]}
{"id": "C02", "title": "Grid ids come back ascending and each belongs to its point", "statement": "The id vector returned by xyzset::sort is non-decreasing (validate_id accepts it) and id[i] is the grid cell of the point now stored at position i (validate_sort accepts it).", "quantifier": "every point vector whose cell ids are in [0, gr^3) and fit a 32-bit int", "why_tests_cant": "Radix passes interact over all byte patterns of ids; finitely many tests cannot cover every id multiset.", "anchors": ["src/xyzset.ipp:sort", "src/xyzset.ipp:validate_id", "src/xyzset.ipp:validate_sort"]}
{"id": "C03", "title": "Offsets delimit every cell's points exactly", "statement": "offset has gr^3+1 entries, offset[0]=0, the last one is the number of points, it is non-decreasing, and position p satisfies offset[c] <= p < offset[c+1] if and only if id[p] = c, for every cell c including empty ones.", "quantifier": "every point vector with in-range ids, every cell c", "why_tests_cant": "Boundary cells and empty cells at either end exist in unboundedly many combinations.", "anchors": ["src/xyzset.ipp:sort"]}
{"id": "C04", "title": "Grid sort is stable and idempotent", "statement": "Points of the same cell keep their relative order, so sorting an already sorted set leaves it unchanged; the indices in the result of tesellate refer to that order.", "quantifier": "every point vector", "why_tests_cant": "Stability is a relation between all pairs of equal keys in all inputs.", "anchors": ["src/xyzset.ipp:sort", "test/votess.cpp:run_test"]}
{"id": "C05", "title": "Points strictly inside the unit cube get a cell inside the grid", "statement": "If every coordinate lies strictly between 0 and 1 then xyzset::sort computes cell ids in [0, gr^3) and performs no out-of-bounds access.", "quantifier": "every coordinate value of the floating type and every grid resolution", "why_tests_cant": "The failing coordinates are single floats next to 1.0 for particular resolutions; random tests will not hit them.", "anchors": ["src/xyzset.ipp:sort", "README.md"]}
{"id": "C06", "title": "Input validation accepts exactly points strictly inside (0,1)^3", "statement": "validate_xyzset returns true if and only if every coordinate of every point is a number strictly between 0 and 1.", "quantifier": "every point vector over every floating-point value, including NaN and infinities", "why_tests_cant": "Needs all special values at all positions.", "anchors": ["src/xyzset.ipp:validate_xyzset", "include/xyzset.hpp"]}
{"id": "C07", "title": "maxheapify repairs a heap and nothing else", "statement": "If both subtrees of position i are max-heaps then after heap::maxheapify the subtree at i is a max-heap; the (id, priority) pairs in the heap are permuted together; nothing outside the heap's k slots changes; the call terminates.", "quantifier": "every heap size, content, position and row offset", "why_tests_cant": "Heap shapes and priority orders are unbounded; frame conditions quantify over all other rows.", "anchors": ["src/heap.ipp:heap::maxheapify", "src/heap.ipp:heap::swap"]}
{"id": "C08", "title": "heap::sort sorts ascending, keeping ids attached", "statement": "heap::sort leaves the k slots in ascending priority order, is a permutation of the (id, priority) pairs it was given, touches nothing else and terminates, for arbitrary (not necessarily heap-ordered) contents, including duplicates and infinities.", "quantifier": "every k and every content of the row", "why_tests_cant": "All permutations of all sizes cannot be enumerated.", "anchors": ["src/heap.ipp:heap::sort"]}
{"id": "C09", "title": "The strided device heap behaves like the contiguous host heap", "statement": "The column-strided (SYCL) versions of swap/maxheapify/sort produce in column i exactly what the contiguous versions produce in a row, and do not touch any other column.", "quantifier": "every stride s, column i < s, heap size and content", "why_tests_cant": "Aliasing errors depend on stride/column combinations.", "anchors": ["src/heap.ipp:heap::swap", "src/heap.ipp:heap::maxheapify", "src/heap.ipp:heap::sort"]}
{"id": "C10", "title": "k-nearest-neighbour search is exact", "statement": "For a query point with at least k other points, knni::compute returns k distinct indices of other points in ascending order of distance, and no other point is nearer than any returned one. (Exact arithmetic; rounding is out of scope.)", "quantifier": "every point set inside the cube, every k >= 1, every grid resolution >= 1, every query point", "why_tests_cant": "The early exit of the shell search depends on geometry of all points relative to all grid planes.", "anchors": ["src/knn.ipp:knni::compute", "src/knn.ipp:is_inshell"]}
{"id": "C11", "title": "The neighbour distances do not depend on the grid resolution", "statement": "The list of distances found by knni::compute is the same for any two grid resolutions; the resolution is a pure performance parameter.", "quantifier": "all pairs of grid resolutions, all point sets and queries", "why_tests_cant": "A relational property over all pairs of runs.", "anchors": ["src/knn.ipp:knni::compute", "README.md"]}
{"id": "C12", "title": "No self and no duplicates among the candidates; documented padding otherwise", "statement": "When k <= n-1 the candidate list contains neither the query point nor a repeated index; when k > n-1 the first n-1 entries are all the other points and the remaining slots hold index 0 at infinite distance.", "quantifier": "every n, k, point set, query", "why_tests_cant": "The padding case depends on k versus n for every n.", "anchors": ["src/knn.ipp:knni::compute", "src/votess.ipp:__cpu__tesellate"]}
{"id": "C13", "title": "The bisector separates points by which seed is nearer", "statement": "For planes::bisect(q, p) and any x, planes::dot((x,1), plane) is positive, zero or negative exactly when x is nearer to q, equidistant, or nearer to p; the plane is all zero iff p = q.", "quantifier": "all p, q, x (exact arithmetic)", "why_tests_cant": "A statement over all triples of points in space.", "anchors": ["src/planes.ipp:planes::bisect", "src/planes.ipp:planes::dot"]}
{"id": "C14", "title": "Plane intersection returns the unique common point", "statement": "If three planes have a non-zero triple product then planes::intersect returns a point on all three with fourth component 1 and it is the only such point, independent of plane order and sign; with a zero triple product it returns the origin.", "quantifier": "all triples of planes (exact arithmetic)", "why_tests_cant": "Continuous domain.", "anchors": ["src/planes.ipp:planes::intersect"]}
{"id": "C15", "title": "Security-radius test is sound", "statement": "If sr::is_reached holds for a candidate q, then neither q nor any point at least as far from the seed as q can remove any point of the current cell; stopping there loses no neighbour.", "quantifier": "every cell reached by clipping, every further point", "why_tests_cant": "It quantifies over all unseen points.", "anchors": ["src/sradius.ipp:sr::update", "src/sradius.ipp:sr::is_reached", "src/cc.ipp:cci::compute"]}
{"id": "C16", "title": "A successful boundary computation returns exactly the boundary of the removed triangles", "statement": "If boundary::compute returns success for a set of oriented triangles with pairwise distinct directed edges and a non-empty boundary, then the cycle array describes one simple cycle, reachable from head, whose edges are exactly the directed edges of the set whose reverse is not in the set; the triangle list is only permuted.", "quantifier": "every triangle set over plane labels 0..254, every capacity <= 255", "why_tests_cant": "All triangulations of all sizes and all orders of presentation.", "anchors": ["src/boundary.ipp:boundary::compute"]}
{"id": "C17", "title": "boundary::compute always terminates inside its buffers", "statement": "For every list of triangles that name three different planes each, boundary::compute returns success or unreachable after finitely many steps and only touches its own cycle row and triangle region, also when the triangles do not form a disc.", "quantifier": "every triangle list with three different labels per triangle, all below the capacity (disconnected, closed, repeated triangles included)", "why_tests_cant": "Non-termination or stray accesses would need the right malformed set.", "anchors": ["src/boundary.ipp:boundary::compute"]}
{"id": "C18", "title": "Every plane capacity accepted by the API is usable", "statement": "Raising cc_p_maxsize never turns a computable cell into a failing one: a boundary that succeeds with one capacity succeeds with every larger one.", "quantifier": "all capacities that fit the parameter type", "why_tests_cant": "Only a capacity above the 8-bit label range exposes the wrap-around.", "anchors": ["src/boundary.ipp:boundary::compute", "src/cc.ipp:cci::compute", "include/arguments.hpp"]}
{"id": "C19", "title": "Computing one cell touches only that cell's memory", "statement": "knni::compute and cci::compute for slot i access only row i of heap_id, heap_pq, P, T, dR, dknn and only the state byte of their own point, never out of bounds, for all sizes with k>=1, p_maxsize in 6..255, t_maxsize>=8.", "quantifier": "every input, slot, row contents", "why_tests_cant": "Row overflows depend on labels read from memory.", "anchors": ["src/cc.ipp:cci::compute", "src/knn.ipp:knni::compute"]}
{"id": "C20", "title": "A finished cell reports an ordered sub-list of the candidates", "statement": "When cci::compute finishes without error the row holds, in the original (ascending distance) order and without repetition, exactly the candidates whose plane is still used by the final cell, followed only by the undefined marker; a candidate that never cut the cell is never reported.", "quantifier": "every candidate list and geometry", "why_tests_cant": "Depends on all clipping histories.", "anchors": ["src/cc.ipp:cci::compute"]}
{"id": "C21", "title": "A cell that hits a capacity limit does not report unfiltered candidates", "statement": "If a cell runs out of plane or triangle slots, its reported neighbours are still a subset of neighbours found so far.", "quantifier": "every overflow point", "why_tests_cant": "Needs the overflow to happen at every possible position.", "anchors": ["src/cc.ipp:cci::compute", "src/votess.ipp:tmpnn_fill"]}
{"id": "C22", "title": "Every reported neighbour touches the Voronoi cell", "statement": "For a cell that finished without error and was validated (security radius reached, or all other points were candidates), each reported j has a point x of the unit cube that is equidistant to i and j and at least as near to i as to every other input point.", "quantifier": "every point set in the open cube, every i, j (exact arithmetic)", "why_tests_cant": "Continuous geometry over all point sets, including degenerate ones.", "anchors": ["src/cc.ipp:cci::compute", "src/votess.ipp:tesellate", "README.md"]}
{"id": "C23", "title": "Every face neighbour is reported", "statement": "For such a cell, every j at another position than i that has a point x strictly inside the cube, equidistant to i and j and strictly nearer to i than to all other points, is in row i.", "quantifier": "every point set in the open cube, every i, j (exact arithmetic)", "why_tests_cant": "Missing neighbours show only for particular configurations.", "anchors": ["src/cc.ipp:cci::compute", "src/votess.ipp:tesellate", "test/votess.cpp:run_test"]}
{"id": "C24", "title": "Chunking covers every point exactly once", "statement": "The chunks [cstart, cend) computed from chunksize are consecutive, start at 0, end at the number of points, never exceed the allocated chunk capacity and contain each point exactly once, for every chunksize including zero, negative, larger than n, and exact divisors of n.", "quantifier": "every n and chunksize", "why_tests_cant": "All pairs (n, chunksize).", "anchors": ["src/votess.ipp:__cpu__tesellate"]}
{"id": "C25", "title": "Threads split a chunk without overlap or gaps", "statement": "The slot ranges given to the threads are pairwise disjoint, stay inside the allocated buffers and cover all slots of the chunk, for every thread count >= 1 (including more threads than points and the short last chunk).", "quantifier": "every thread count, chunk size, remainder", "why_tests_cant": "All combinations of sizes.", "anchors": ["src/votess.ipp:__cpu__tesellate", "src/votess.ipp:__cpu__recompute"]}
{"id": "C26", "title": "Thread scheduling cannot change the result", "statement": "Every interleaving of the worker threads at the granularity of single memory accesses ends, without undefined behaviour, in the same memory as running the slots one after another; there is no data race.", "quantifier": "every schedule", "why_tests_cant": "The number of schedules is unbounded; races are invisible to tests.", "anchors": ["src/votess.ipp:__cpu__tesellate", "src/votess.ipp:__cpu__recompute"]}
{"id": "C27", "title": "Results do not depend on cpu_nthreads, use_chunking or chunksize", "statement": "tesellate on the CPU returns the same neighbour lists for any two settings of cpu_nthreads and any chunking parameters.", "quantifier": "all pairs of settings, all inputs", "why_tests_cant": "A relation between all pairs of runs.", "anchors": ["src/votess.ipp:__cpu__tesellate", "README.md"]}
{"id": "C28", "title": "use_recompute terminates", "statement": "With k >= 1 the recompute loop stops after finitely many rounds (at most about log2(n/k)+1).", "quantifier": "every n, k >= 1 and every pattern of per-cell outcomes", "why_tests_cant": "Termination for all outcome histories.", "anchors": ["src/votess.ipp:__cpu__recompute"]}
{"id": "C29", "title": "use_recompute leaves only validated cells", "statement": "After a run with use_recompute every cell has either reached its security radius or been clipped by all other points, without a capacity or boundary error (README: 'This will ensure all points are valid voronoi cells').", "quantifier": "every input and parameter setting", "why_tests_cant": "A failing cell in the last round needs the right capacity history.", "anchors": ["src/votess.ipp:__cpu__recompute", "README.md"]}
{"id": "C30", "title": "The returned jagged array is well formed", "statement": "dnn.size() equals the number of input points; dnn[i].size() is the number of neighbours recorded for point i, dnn[i][j] is the j-th of them for all j below it, rows are stored contiguously and no undefined marker is visible.", "quantifier": "every table of per-point neighbour rows (including empty rows)", "why_tests_cant": "All shapes of jagged arrays.", "anchors": ["src/votess.ipp:tmpnn_getdnn", "src/votess.ipp:tmpnn_fill", "src/dnn.ipp:dnn", "src/dnn.ipp:proxy"]}
{"id": "C31", "title": "savetxt and print show one line per point", "statement": "The text written by savetxt has exactly one line per point, the i-th line listing row i, so the array can be read back; print shows the same rows in braces.", "quantifier": "every jagged array", "why_tests_cant": "Depends on positions of empty rows.", "anchors": ["src/dnn.ipp:dnn::print", "src/dnn.ipp:dnn::savetxt"]}
{"id": "C32", "title": "Integer and boolean parameters read back as written", "statement": "After args[key] = v for an int or bool v, reading the key as that type (or an int-valued bool as int) returns v; reading a value outside the target range or of the wrong form throws.", "quantifier": "every int and bool", "why_tests_cant": "All integers including extremes.", "anchors": ["include/arguments.hpp:vtargref"]}
{"id": "C33", "title": "Parameter keys are closed and independent", "statement": "Access to an unknown key throws and changes nothing; assigning one key never changes the value read from another; the last assignment wins; defaults are as documented.", "quantifier": "every sequence of assignments", "why_tests_cant": "All histories of assignments.", "anchors": ["include/arguments.hpp:vtargs"]}
{"id": "C34", "title": "Numeric parameters given as floating-point keep their value", "statement": "Assigning an integral floating-point number (README: 'arithmetic types are accepted') and reading it as int gives that integer.", "quantifier": "every integral double", "why_tests_cant": "Only large values switch the output format.", "anchors": ["include/arguments.hpp:vtargref", "README.md"]}
{"id": "C35", "title": "Cell status flags are independent", "statement": "Setting or clearing one status flag changes that flag only; get returns the last value set; reset clears all.", "quantifier": "every byte, every pair of flags, every sequence of operations", "why_tests_cant": "All histories.", "anchors": ["src/status.ipp:cc::state", "include/status.hpp"]}
{"id": "C36", "title": "The command line runs on the requested device", "statement": "clvotess -x <device> (and the default gpu) runs the tessellation on that device.", "quantifier": "every argument vector", "why_tests_cant": "Output is the same on both devices, so tests do not notice.", "anchors": ["src/main.cpp:main", "src/main.cpp:parse_args"]}
{"id": "C37", "title": "CPU and GPU per-cell code agree", "statement": "Without chunking, the device versions of knni::compute and cci::compute compute, in their strided layout, the same neighbours and states as the host versions.", "quantifier": "every input with sizes inside the device integer widths", "why_tests_cant": "A relation between two programs over all inputs.", "anchors": ["src/knn.ipp:knni::compute", "src/cc.ipp:cci::compute", "src/votess.ipp:__gpu__tesellate"]}
{"id": "C38", "title": "GPU chunking does not change the result", "statement": "On the GPU, enabling chunking gives the same neighbours as not chunking.", "quantifier": "every chunk size and input", "why_tests_cant": "CI has no GPU and the effect depends on chunk size.", "anchors": ["src/votess.ipp:__gpu__tesellate", "src/knn.ipp:knni::compute"]}
{"id": "C39", "title": "Large candidate counts are honoured", "statement": "Every k accepted by the API (an int) is used as the number of candidates by all stages.", "quantifier": "every k", "why_tests_cant": "Needs k >= 65536.", "anchors": ["src/cc.ipp:cci::compute", "src/votess.ipp:__cpu__recompute"]}
{"id": "C40", "title": "Face neighbourhood is symmetric in the output", "statement": "If both cells are validated, a face neighbour j of i (at another position) also lists i.", "quantifier": "every point set and pair", "why_tests_cant": "All pairs in all sets.", "anchors": ["src/votess.ipp:tesellate"]}
{"id": "C41", "title": "Every vertex of a computed cell belongs to the true cell", "statement": "At every stage of clipping each triangle of the current cell denotes a point of the cube that is at least as near to the seed as to every candidate processed so far, the triangles form a closed oriented surface, and every point of the clipped region is bounded by these vertices in each direction.", "quantifier": "every clipping history (exact arithmetic), including degenerate positions", "why_tests_cant": "Invariant over unbounded histories.", "anchors": ["src/cc.ipp:cci::compute"]}
{"id": "C42", "title": "Branch-free helpers compute min, max and selection", "statement": "utils::bmin/bmax (2 and 3 arguments) return the minimum/maximum, sr::update returns the larger radius, utils::swap exchanges, for all finite ordered values.", "quantifier": "all argument values", "why_tests_cant": "Continuous domain; NaN/inf exceptions must be delimited.", "anchors": ["src/utils.ipp:utils", "src/sradius.ipp:sr::update"]}
{"id": "C43", "title": "The command line rejects unusable input without tessellating", "statement": "clvotess exits with status 1 and runs nothing if no input file is named, it cannot be opened, or any line does not start with three numbers; otherwise it tessellates exactly the points of the file in order and exits 0; k given as 0 becomes min(n, 64).", "quantifier": "every argument vector and file content", "why_tests_cant": "All files.", "anchors": ["src/main.cpp:main"]}
{"id": "C44", "title": "Buffer sizes and indices do not overflow", "statement": "For every number of points whose buffers fit the index type, all index computations stay in range; sizes whose product exceeds it are not silently accepted.", "quantifier": "every n, k, p_maxsize, t_maxsize", "why_tests_cant": "Needs tens of millions of points.", "anchors": ["src/votess.ipp:__cpu__tesellate"]}
{"id": "C45", "title": "k = 0 is handled", "statement": "tesellate with k = 0 returns (with empty rows) rather than misbehaving.", "quantifier": "every point set", "why_tests_cant": "The symptom is an out-of-bounds read that usually goes unnoticed.", "anchors": ["src/knn.ipp:knni::compute", "include/arguments.hpp", "src/main.cpp:main"]}
{"id": "C46", "title": "Clipping never ends in an inconsistent cell", "statement": "In exact arithmetic no cell of any tesellate call carries infinite_boundary or error_occurred: the removed triangles of every cut always have one closed boundary cycle, including for degenerate (cospherical, coplanar, duplicate) inputs.", "quantifier": "every point set in the open cube and every supported parameter choice", "why_tests_cant": "Topological invariant over all clipping histories; degenerate positions have measure zero.", "anchors": ["src/boundary.ipp:boundary::compute", "src/cc.ipp:cci::compute"]}
{"id": "C47", "title": "Capacity flags mean the capacity is too small", "statement": "p_overflow is reported only if p_maxsize < 6 + min(k, n-1), t_overflow only if t_maxsize < 8 + 2 min(k, n-1) and t_maxsize < 2 p_maxsize - 4.", "quantifier": "every point set and every p_maxsize, t_maxsize, k in range", "why_tests_cant": "Needs the worst case over all point sets (Euler bound on intermediate cells).", "anchors": ["src/cc.ipp:cci::compute", "include/status.hpp"]}
{"id": "C48", "title": "With enough candidates and room the neighbour lists are exact", "statement": "If k >= n-1, p_maxsize >= n+5 and t_maxsize >= 2n+6, the call returns, no cell has an error flag, every listed index touches the cell and every cell sharing a face is listed; no condition on flags.", "quantifier": "every point set in the open cube (exact arithmetic)", "why_tests_cant": "All point sets.", "anchors": ["src/votess.ipp:tesellate"]}
{"id": "C49", "title": "use_recompute makes every row exact", "statement": "With use_recompute, any starting k in 1..65535 and p_maxsize >= n+5, t_maxsize >= 2n+6, the call returns with error-free, exact neighbour lists for every point.", "quantifier": "every point set with n >= 2 (exact arithmetic) and every starting k", "why_tests_cant": "All point sets and all round histories.", "anchors": ["src/votess.ipp:__cpu__recompute", "src/votess.ipp:tesellate"]}
{"id": "C50", "title": "Rows have no repetitions", "statement": "A row of a cell without error flag names no point twice, not its own point, no point at its own position and no two points at one position, even if the cell is incomplete because k was too small; the returned object shows exactly these rows.", "quantifier": "every point set in the open cube and every supported parameter choice (exact arithmetic), also with use_recompute", "why_tests_cant": "All point sets, including ones with equal points.", "anchors": ["src/votess.ipp:tesellate", "src/cc.ipp:cci::compute", "src/dnn.ipp"]}
{"id": "C51", "title": "The neighbour relation is symmetric", "statement": "If point i lists point j then j lists i, when k and the capacities are large enough.", "quantifier": "every point set", "why_tests_cant": "Fails only in degenerate positions, which random tests never hit.", "anchors": ["src/votess.ipp:tesellate", "src/cc.ipp:cci::compute"]}
{"id": "C52", "title": "The neighbour relation depends only on the point set", "statement": "Which points (identified by position) are neighbours does not depend on the order of the input, k, grid resolution, capacities, threads, chunks, schedules or use_recompute, once k and the capacities are large enough; it is the relation of sharing a face.", "quantifier": "every point set, every order of it and every pair of parameter choices", "why_tests_cant": "All permutations and parameters; ties.", "anchors": ["src/votess.ipp:tesellate", "src/xyzset.ipp:xyzset::sort"]}
{"id": "C53", "title": "Device runs give exact neighbour lists", "statement": "With k >= n-1, p_maxsize >= n+5, t_maxsize >= 2n+6 within the device's 8-bit limits and n a multiple of gpu_ndsize, a device run returns and its rows are exact as in C48.", "quantifier": "every point set, every interleaving of work items, every content of uninitialised device memory (exact arithmetic)", "why_tests_cant": "CI has no GPU; schedules and leftover memory are uncontrollable.", "anchors": ["src/votess.ipp:__gpu__tesellate", "src/cc.ipp:cci::compute"]}
{"id": "C54", "title": "Every parameter reaches the run it configures", "statement": "After any sequence of well-typed assignments to a vtargs object, tesellate runs with the last value assigned to each key, or its documented default, on the device given as argument.", "quantifier": "every sequence of assignments, any arithmetic", "why_tests_cant": "All combinations of keys, values and orders.", "anchors": ["include/arguments.hpp:vtargs", "src/votess.ipp:tesellate"]}
{"id": "C55", "title": "From assignments to exact neighbours", "statement": "Assigning parameters that meet the bounds of C48 or C49 and calling tesellate on the CPU returns exact rows; with no assignment at all this holds for up to 13 points.", "quantifier": "every sequence of assignments and point set in the open cube (exact arithmetic)", "why_tests_cant": "All point sets and parameters.", "anchors": ["include/arguments.hpp:vtargs", "src/votess.ipp:tesellate"]}
{"id": "C56", "title": "The printed summary counts cells", "statement": "Each number of the summary printed at the end equals the number of cells whose state has the respective flag.", "quantifier": "every call that returns, any arithmetic, any device", "why_tests_cant": "Counter and flag must agree on every run.", "anchors": ["src/votess.ipp:tesellate", "include/status.hpp"]}
{"id": "C57", "title": "The summary reports the cells that missed their security radius", "statement": "The number printed as failed security radius is the number of cells whose final row was computed without reaching the security radius, also with use_recompute.", "quantifier": "every call", "why_tests_cant": "Rows and neighbours are right; only the report is wrong.", "anchors": ["src/votess.ipp:__cpu__recompute", "src/votess.ipp:tesellate"]}
{"id": "C58", "title": "Parameters set from Python mean what they mean in C++", "statement": "Assigning ints and bools to a vtargs object from Python leaves it in the state the same C++ assignments give; an int outside the C++ range or a value of another type raises an exception. A float with an integral value is stored as the nearest single precision number (half to even) and read back as that int below a million.", "quantifier": "every sequence of assignments", "why_tests_cant": "All sequences of keys and values.", "anchors": ["src/pybind11/pyvotess.cpp", "include/arguments.hpp:vtargs"]}
{"id": "C59", "title": "Row i of a Python result describes the i-th point given", "statement": "votess.tesellate called from Python leaves the caller's array as it is, and row i of the result lists the neighbours, as indices into that array, of point i.", "quantifier": "every array of points in the open cube, every parameters that meet C48 or C49 (exact arithmetic)", "why_tests_cant": "A test on sorted input passes; only some orders of the input show it.", "anchors": ["src/pybind11/pyvotess.cpp", "src/xyzset.ipp:xyzset::sort"]}
{"id": "C60", "title": "Python loops over a row end after its last entry", "statement": "Iterating in Python over row i of a result yields exactly the entries of row i and stops.", "quantifier": "every result and every row", "why_tests_cant": "Depends on memory behind the row.", "anchors": ["src/pybind11/pyvotess.cpp", "src/dnn.ipp"]}
{"id": "C61", "title": "Parameters that cannot work are rejected", "statement": "A CPU call with a parameter value no run can work with (grid resolution < 1 or with a cube beyond int, k < 1, capacities below the unit cube's 6 planes and 8 triangles, no thread) throws and does not return a result.", "quantifier": "every parameter set, non-empty point set, schedule and arithmetic", "why_tests_cant": "Out-of-bounds accesses often go unnoticed in a test.", "anchors": ["src/votess.ipp:tesellate", "src/cc.ipp:cci::compute", "include/arguments.hpp:vtargs"]}
{"id": "C62", "title": "In single precision every row is a list of different points", "statement": "A call in single precision (the type of the command line and the Python module) returns, and row i names at most k different existing points, not point i, ordered by the computed distance from it; whatever the rounding did to the clipping.", "quantifier": "every set of floats in the open cube, every resolution that keeps them inside the grid, every k, capacities, threads, chunks, schedules, with and without use_recompute", "why_tests_cant": "Rounding decides which planes cut; no set of test points covers the ways it can go.", "anchors": ["src/knn.ipp", "src/cc.ipp:cci::compute", "src/votess.ipp:tesellate", "src/pybind11/pyvotess.cpp"]}
{"id": "C63", "title": "Single precision finds the exact tessellation of the floats given", "statement": "The neighbours reported by a run in single precision are those of the exact Voronoi tessellation of the same floats: none missing, none extra, the k candidates are the nearest points, no cell fails, and a cell flagged as having reached its security radius is complete.", "quantifier": "every set of floats in the open cube", "why_tests_cant": "Failures need points in special position relative to the rounding.", "anchors": ["src/cc.ipp:cci::compute", "src/knn.ipp", "src/planes.ipp", "src/sradius.ipp"]}
{"id": "C64", "title": "Points outside the cube are reported", "statement": "A call writes \"oops1\" to standard error exactly if a point does not lie strictly inside the unit cube, and otherwise nothing but the notice that no device was found.", "quantifier": "every point set, every parameters, both devices; exact arithmetic and single precision including NaN and infinities", "why_tests_cant": "Tests use valid points; the ways to be outside (faces, corners, NaN, rounding of the cell number) are many.", "anchors": ["src/votess.ipp:tesellate", "src/xyzset.ipp:xyzset::validate_xyzset", "src/xyzset.ipp:xyzset::sort"]}
{"id": "C65", "title": "Standard output carries the neighbour lists and nothing else", "statement": "A library call with default parameters writes nothing to standard output. The program writes exactly the printed neighbour lists to standard output (unless help is asked for), nothing to standard error if the options are known and the points inside the cube, and for unusable input an error message and no lists.", "quantifier": "every point set, file, option list, schedule and arithmetic", "why_tests_cant": "A stray message shows up only for the inputs that trigger it.", "anchors": ["src/main.cpp", "src/votess.ipp:tesellate"]}
{"id": "C66", "title": "Every documented way to write an option is understood", "statement": "Each list of options, written with short or long names, arguments joined or separate, letters joined, names abbreviated, other words in between and up to \"--\", is understood as that list; every mistake (unknown letter, unknown or ambiguous name, missing or unexpected argument) is reported once, at its place; and every option of the help text is accepted.", "quantifier": "every list of options and every way to write it", "why_tests_cant": "Infinitely many spellings and arguments.", "anchors": ["src/main.cpp"]}
{"id": "C67", "title": "Asking for help or the version succeeds", "statement": "The program called with only --help or only --version prints that text and exits with status 0 and no error.", "quantifier": "every environment", "why_tests_cant": "Easily overlooked, since the text does appear.", "anchors": ["src/main.cpp"]}
{"id": "C68", "title": "Coordinates in the file are read as the nearest floats", "statement": "A decimal number in the input file (any number of digits, with or without point, sign and exponent) is read as the float nearest to its value; a number strictly between 0 and 1 becomes a coordinate strictly inside the cube.", "quantifier": "every decimal number", "why_tests_cant": "Infinitely many numerals; boundary cases sit exactly between floats.", "anchors": ["src/main.cpp"]}
{"id": "C69", "title": "Nine digits are enough", "statement": "A decimal number that agrees with a float to nine significant digits is read as exactly that float, so points can be written to a file and read back.", "quantifier": "every positive finite float and every numeral within half a unit of its ninth digit", "why_tests_cant": "2^31 floats and infinitely many numerals.", "anchors": ["src/main.cpp"]}
{"id": "C70", "title": "From the text of the file to the printed text", "statement": "For a file of lines with three decimal numbers that round to floats strictly inside the cube, and known options whose parameters fit, the program exits with status 0, prints one row per point in which every index is a different existing point, in the order of the computed distances of the rounded coordinates, and writes nothing else.", "quantifier": "every file, every way to write the command line, k < n, single precision, every schedule and number of threads", "why_tests_cant": "End-to-end over all texts.", "anchors": ["src/main.cpp", "src/votess.ipp:tesellate", "src/dnn.ipp"]}
{"id": "C71", "title": "The neighbour lists determine the Voronoi cells", "statement": "A location in the cube lies in the Voronoi cell of a point exactly if it is not farther from that point than from each of its listed neighbours; no other point needs to be looked at. For every cell validated by its state byte, and for every cell if k and the capacities suffice or use_recompute is on.", "quantifier": "every point set in the open cube, degenerate positions included, every location, every schedule; exact arithmetic", "why_tests_cant": "Quantifies over all real locations.", "anchors": ["src/votess.ipp:tesellate", "src/cc.ipp:cci::compute", "include/dnn.hpp"]}
{"id": "C72", "title": "Faces are reported also for repeated points and for pairs with an empty ball", "statement": "If the cells of two positions share a face, then for each point at the first position some point at the second one is listed, even if several points share a position; in particular if no third point lies in the closed ball whose diameter joins the two.", "quantifier": "every point set in the open cube, repeated points included, sufficient k and capacities or use_recompute; exact arithmetic", "why_tests_cant": "Repeated points make the usual notion of a face empty; all configurations are meant.", "anchors": ["src/votess.ipp:tesellate", "src/cc.ipp:cci::compute"]}
{"id": "C73", "title": "The neighbour graph connects all points by short steps", "statement": "From every point to every other there is a path along listed neighbours, no step of which is longer than the distance between the two.", "quantifier": "every point set in the open cube, every pair of points, sufficient k and capacities or use_recompute; exact arithmetic", "why_tests_cant": "A statement about paths in a graph of unbounded size.", "anchors": ["src/votess.ipp:tesellate", "include/dnn.hpp"]}
{"id": "C74", "title": "Rows are sorted by distance and begin with a nearest point", "statement": "The entries of a row without error flag come in ascending order of distance; if the cell is complete, the first one is a nearest point at another position.", "quantifier": "every point set in the open cube, every k; exact arithmetic", "why_tests_cant": "Depends on the candidate order surviving clipping and compaction for all inputs.", "anchors": ["src/knn.ipp", "src/cc.ipp:cci::compute", "src/votess.ipp:tesellate"]}
{"id": "C75", "title": "Leaving out a point affects its neighbours only", "statement": "If a point that is not listed for p is removed from the input, the Voronoi cell of p is the same, and if p is in generic position the call lists the same neighbours for p, whatever the order of the points, k, the grid and the threads are.", "quantifier": "every point set in the open cube, every removed point, any two sufficient parameter sets; exact arithmetic", "why_tests_cant": "Relates two calls over all inputs.", "anchors": ["src/votess.ipp:tesellate"]}
{"id": "C76", "title": "Permuting or reflecting the axes does not change the neighbours", "statement": "If all points are moved by a symmetry of the cube, the listed neighbours are the moved ones.", "quantifier": "every point set in generic position in the open cube, every symmetry of the cube, any two sufficient parameter sets; exact arithmetic", "why_tests_cant": "Axes are treated one by one in the code (grid cells, walls, determinants); relates two calls over all inputs.", "anchors": ["src/votess.ipp:tesellate", "src/xyzset.ipp:xyzset::sort", "src/cc.ipp:cci::compute"]}
{"id": "C77", "title": "A validated cell does not depend on k", "statement": "If a cell is validated by its state byte in two calls with different k, grid resolution, capacities or threads, both list the same neighbours for it, provided the cells touching it share a face with it.", "quantifier": "every point set in the open cube, any two parameter sets; exact arithmetic", "why_tests_cant": "Relates two calls over all inputs and parameters.", "anchors": ["src/votess.ipp:tesellate", "src/sradius.ipp", "src/knn.ipp"]}
{"id": "C78", "title": "Grid resolutions outside the usable range", "statement": "For every int value of knn_grid_resolution, sorting a set of points inside the open cube either succeeds or throws; it never accesses memory out of bounds.", "quantifier": "every point set, every int resolution", "why_tests_cant": "The library's own tests run resolution 0, where the sort writes past the end of the offset array without any visible effect.", "anchors": ["src/xyzset.ipp:xyzset::sort", "include/arguments.hpp:vtargs", "test/xyzset.cpp"]}
{"id": "C79", "title": "In single precision the candidates are the nearest points up to 2^-20", "statement": "For points in the open unit cube given as floats, a usable resolution and k below the number of points n, every row of the result comes from k points (with recompute: at least k) none of which is farther from point i than a point left out, or than one behind it in the list, by more than 2^-20. Distances are those of the floats as real numbers. The row is a sub-list in the same order; a cell that ended with an error returns all of them. If the distances from point i are equal or more than 2^-20 apart, the points are exactly k nearest ones; this holds for all i when the coordinates are multiples of 1/512.", "quantifier": "All lists of points with float coordinates in the open cube, all k < n, all usable resolutions, thread numbers and schedules, with and without recompute.", "why_tests_cant": "The rounding of cell coordinates, wall distances, shell bounds and squared distances depends on the bits of each coordinate; tests compare a few random inputs with a brute force search that rounds in the same way.", "anchors": ["src/knn.ipp:knni::compute", "src/xyzset.ipp:xyzset::sort", "src/xyzset.ipp:xyzset::get_distance", "src/votess.ipp:tesellate"]}
{"id": "C80", "title": "In single precision the device returns the rows of the CPU, bit for bit", "statement": "For points in the open unit cube given as floats, sizes inside the device integer widths, one chunk, whole work groups and no recompute: the call on the device returns the same reordered points, rows and neighbour object as the call on the CPU. A state flag set on the CPU is set on the device, further flags can only come from the uninitialised state array; if that array happens to be zero the two calls agree completely, with recompute as well. The bound of C79 therefore holds for device rows.", "quantifier": "All lists of points with float coordinates in the open cube, all parameters inside the device limits, all schedules of work items and threads, all contents of uninitialised device memory.", "why_tests_cant": "The kernels differ: the device multiplies by 0 and 1 where the host branches, takes minima the same way, and starts its heap from 128 instead of infinity. A test needs a device and sees the inputs it runs.", "anchors": ["src/knn.ipp:knni::compute", "src/utils.ipp:utils::bmin", "src/votess.ipp:__gpu__tesellate", "src/votess.ipp:__cpu__tesellate"]}
{"id": "C81", "title": "use_recompute on the device: only a leftover bit 0 can do harm", "statement": "With device gpu, use_recompute, one chunk and sizes inside the device integer widths, whatever the uninitialised state memory held: the call returns, and the row of every cell whose leftover byte has bit 0 (radius reached) clear is complete, provided its state has no error (exact arithmetic; parameters as in C29). If no leftover byte has bit 0 or an overflow bit, the call gives the same points, rows, neighbour object, states and statistics as the call on the CPU, also in single precision and also where recompute fails. In single precision the candidates behind each row are k or more nearest points up to 2^-20 (C79) whatever the memory held.", "quantifier": "All point lists in the open cube (exact arithmetic or floats), all parameters inside the limits, all schedules, all contents of uninitialised device memory.", "why_tests_cant": "The outcome depends on what the device memory held before; a test machine usually hands out zeroed pages, where nothing goes wrong.", "anchors": ["src/votess.ipp:__gpu__tesellate", "src/votess.ipp:__cpu__recompute", "include/status.hpp"]}
{"id": "C82", "title": "In single precision, points in robust position get their exact Voronoi row", "statement": "For points in the open unit cube given as floats and k below the number of points n: if point i is in robust position, its state has neither the infinite-radius nor the invalid-boundary bit, it has no error bit at all when the capacities have room for k neighbours, and if the state byte validates the cell, the row lists exactly the neighbours of the cell of point i among the floats as real numbers: every entry touches the cell, every face neighbour is an entry, and the entries alone bound the cell. Robust position: no corner that nearest points of i can cut out comes closer than 2^-16 / (rho D) to the bisector plane of a further point, where rho is a lower bound of the distance of the other points and D the determinant of the unit normals at the corner. With recompute the same holds for every cell without error; if all points are robust and there is room for n - 1 neighbours, no cell ends with an error. On the device it holds for every cell whose leftover byte has bit 0 clear.", "quantifier": "All lists of points with float coordinates in the open cube, all k < n, all usable resolutions, thread numbers and schedules, with and without recompute, CPU and device.", "why_tests_cant": "C63 is refuted by near-degenerate inputs; random tests meet such inputs rarely and cannot say how far from degenerate is far enough. The margin comes from bounds on the rounding of every distance, plane, determinant and product on the way.", "anchors": ["src/cc.ipp:cci::compute", "src/sradius.ipp", "src/boundary.ipp", "src/knn.ipp:knni::compute", "src/votess.ipp:tesellate"]}
{"id": "C83", "title": "In robust position single precision finds the neighbours of exact arithmetic", "statement": "For points in the open unit cube given as floats, all in robust position (C82), k below the number of points n, capacities with room for n - 1 neighbours, and use_recompute or k = n - 1: the call returns without error states, and j is in row i exactly when the cells of i and j share a face in the Voronoi diagram of the floats as real numbers. The neighbour relation is symmetric, the same for every order of the points and every grid resolution, k, thread number and chunk size, and the same as that of a call in exact arithmetic on the same positions. Robust position can be tested in integer arithmetic; points that pass the test get the result above.", "quantifier": "All lists of points with float coordinates in the open cube, all usable parameters, thread numbers and schedules, with and without recompute.", "why_tests_cant": "C51, C52 and C63 are refuted without conditions; a test cannot tell an input that happens to work from one far enough from degeneracy. Relates pairs of calls and two number types.", "anchors": ["src/votess.ipp:tesellate", "src/cc.ipp:cci::compute", "src/sradius.ipp", "src/boundary.ipp", "src/knn.ipp:knni::compute"]}
{"id": "C84", "title": "The whole way in single precision: from a file, from C++ or from Python to the true Voronoi neighbours", "statement": "For points in the open unit cube in robust position (C82), with room for n - 1 neighbours and use_recompute or k = n - 1: (a) C++: any sequence of well-typed assignments followed by tesellate on the CPU returns the points stably sorted by the grid cell computed in single precision, and row i lists exactly the points whose Voronoi cells share a face with that of the i-th sorted point, each once; no error state; savetxt writes exactly these rows. (b) Command line: from the words of the command line and the text of a file of decimal numbers, the program prints exactly these rows for the floats nearest to the numbers, nothing on standard error, and exits with 0. (c) Python: the same rows, the caller's array unchanged. (d) The example of README.md meets the conditions, so its call returns the true neighbours of its ten points.", "quantifier": "All lists of points with float coordinates, all files and command lines of the stated form, all usable parameters, thread numbers and schedules.", "why_tests_cant": "Connects text, option parsing, number conversion, the rounded sort, search and clipping, and the printed text in one statement; tests look at the stages one by one, and the rows of the README example are nowhere compared with the true diagram.", "anchors": ["src/main.cpp:main", "README.md", "src/votess.ipp:tesellate", "src/pybind11", "src/dnn.ipp", "src/xyzset.ipp:xyzset::sort"]}
{"id": "C85", "title": "Single precision returns the rows of exact arithmetic entry for entry", "statement": "For points in the open unit cube in robust position (C82), with room for n - 1 neighbours and use_recompute or k = n - 1, whose mutual distances as seen from each point differ by more than 2^-20: (a) the rows list the true face neighbours from the nearest to the farthest; there is exactly one such list of rows; (b) so k, recompute, capacities, threads, chunks and schedules leave points, rows and neighbour object unchanged; (c) exact arithmetic on the same positions gives the same neighbour object whenever the points fall into the same grid cells, which holds for every resolution 2^m up to 1024, the default 16 among them; (d) the device returns the same rows without recompute, or with device states that happen to be zero; (e) a test in integers decides the condition on the distances; the README example passes it.", "quantifier": "All lists of points with float coordinates, all usable parameters, worlds and schedules, all exact arithmetics.", "why_tests_cant": "Compares rounded runs with exact ones that cannot be executed, for all inputs; a test could compare two float runs with each other only.", "anchors": ["src/votess.ipp:tesellate", "src/knn.ipp", "src/cc.ipp", "src/xyzset.ipp:xyzset::sort", "src/dnn.ipp", "README.md"]}
{"id": "C86", "title": "Fractional parameter values are truncated", "statement": "Assigning a float or double x to an integer parameter and reading it as int gives x without its fractional part; a switch is off for |x| < 1 and on for 1 <= x < 2; NaN and infinities are refused.", "quantifier": "every finite float and double, every key; from C++ and, rounded to single precision first, from Python", "why_tests_cant": "The stored text has six significant digits and an exponent outside 10^-4..10^6; only values near an integer, tiny ones and large ones show it.", "anchors": ["include/arguments.hpp:vtargref", "src/pybind11/pyvotess.cpp", "src/votess.ipp:tesellate"]}
{"id": "C87", "title": "A cell too large for its buffers is reported", "statement": "A cell with faces towards f other points and w walls of the cube is reported complete only if 2 (f + w) - 4 <= cc_t_maxsize and f + 6 <= cc_p_maxsize; otherwise one of the two overflow flags is set, given k >= n - 1 or security_radius_reached, and its row is the list of the k nearest points padded with 0. Without overflow flag no row is longer than cc_t_maxsize / 2 + 2 or cc_p_maxsize - 6.", "quantifier": "every point set in the open cube, every k, p_maxsize, t_maxsize in range, every point, schedule and exact arithmetic (CPU, no recompute)", "why_tests_cant": "Needs a lower bound on the triangles of any algorithm state that represents the cell (Euler's formula), for all point sets.", "anchors": ["src/cc.ipp:cci::compute", "include/status.hpp", "src/votess.ipp:tesellate"]}
{"id": "C88", "title": "The default parameters are enough for up to 65 points", "statement": "With no assignment at all (k = 64, cc_p_maxsize 32, cc_t_maxsize 32), up to 65 points in the open cube get complete rows: exactly the points with a face to their cell.", "quantifier": "every point set of at most 65 points, every order of the points and schedule (exact arithmetic)", "why_tests_cant": "Depends on the largest number of faces of any cell; random tests of small inputs have cells with fewer than 19 faces on average.", "anchors": ["include/arguments.hpp:vtargs", "src/cc.ipp:cci::compute", "README.md"]}
{"id": "C89", "title": "Exactly which cells overflow", "statement": "The points near i are the k nearest, nearest first. Slot i gets no error flag only if at every moment cc_p_maxsize >= 6 + the number of points so far that cut the cell left by those before them, and cc_t_maxsize >= 2 f - 4 when the cell so far has f facets (walls count). p_overflow is set only if the cutting points exceed cc_p_maxsize - 6; t_overflow only if the c cutting points have 2 c + 8 > cc_t_maxsize and at some moment the cell touches f other cells and walls with 2 f - 4 > cc_t_maxsize. If the cell shares a facet with whatever it touches (general position), no error flag if and only if both bounds hold throughout.", "quantifier": "every point set in the open cube, every k, p_maxsize, t_maxsize in range, every point, schedule and exact arithmetic (CPU, no recompute)", "why_tests_cant": "The buffers can overflow on the way to a small final cell; needs both an upper and a lower bound on the triangles of every intermediate cell.", "anchors": ["src/cc.ipp:cci::compute", "include/status.hpp", "src/votess.ipp:tesellate"]}
{"id": "C90", "title": "Spread points need small buffers only", "statement": "If every place of the unit cube has an input point nearer than r, and no point has more than M others nearer than 2 r, then k >= M, cc_p_maxsize >= M + 6 and cc_t_maxsize >= 2 M + 8 give no error flag and the exact neighbours in every row, for any number of points. The buffers need room for C cuts only, when no cell is cut more than C times by the points in the order of their distance; with use_recompute that alone is enough, for every k. The device returns such rows too. The default options return the exact neighbours of a lattice of m x m x m points, 1 <= m <= 255, in any order.", "quantifier": "every point set in the open cube, every r, M, C, options in range, schedule and exact arithmetic; every m from 1 to 255 for the lattice with default options", "why_tests_cant": "Speaks of point sets of any size, with buffers that do not grow with them.", "anchors": ["src/cc.ipp:cci::compute", "src/sradius.ipp:sr::is_reached", "src/votess.ipp:tesellate", "src/votess.ipp:__cpu__recompute", "src/votess.ipp:__gpu__tesellate"]}
{"id": "C91", "title": "What use_recompute leaves unfinished", "statement": "After a call with use_recompute whose growing sizes stay in range, row i lists exactly the neighbours of point i, or point i carries an overflow flag and its own Voronoi cell is too large: taken among all other points in the order of their distance it is cut more than cc_p_maxsize - 6 times (p_overflow), or at some moment more than (cc_t_maxsize - 8) / 2 times with contacts that need more than cc_t_maxsize triangles (t_overflow). So a point whose cell is cut at most M times gets its exact row if there is room for M cuts, whatever happens to the other cells.", "quantifier": "every point set in the open cube, options in range for the rounds needed, schedule and exact arithmetic; every row", "why_tests_cant": "Speaks of each row separately, in runs where other rows fail, over all rounds of all calls.", "anchors": ["src/votess.ipp:__cpu__recompute", "src/votess.ipp:tesellate", "src/cc.ipp:cci::compute"]}
{"id": "C92", "title": "Single precision: buffers for the cuts that occur", "statement": "Points in single precision in robust position (C82), no cell cut more than M times when the other points come by distance up to an error of 2^-20. Then cc_p_maxsize >= M + 6 and cc_t_maxsize >= 2 M + 8 give no error flag, the exact Voronoi neighbours in every row and the text of one line per row, for any number of points, if use_recompute is set or k = n - 1; from vtargs too. Without use_recompute and on the device it is enough that k covers the points nearer than 2 r + 2^-20, where every place of the cube has a point nearer than r. Points on a line parallel to the first axis, 2^-7.5 or more apart, need M = 2, so 65 or more of them are solved by the default options with use_recompute.", "quantifier": "every robust list of single precision points in the open cube, every M, r, options in range and schedule", "why_tests_cant": "Speaks of all float inputs in robust position and of every rounding on the way, with buffers that do not grow with the number of points.", "anchors": ["src/cc.ipp:cci::compute", "src/sradius.ipp:sr::is_reached", "src/votess.ipp:tesellate", "src/votess.ipp:__cpu__recompute", "src/votess.ipp:__gpu__tesellate"]}
{"id": "C93", "title": "Result objects made and used directly", "statement": "An object made by dnn(list, offs) from the entries of n rows and the n + 1 positions where they start shows these rows: size() is n, d[i].size() and d[i][j] are those of row i. Every result of tesellate is such an object. d[i][j] = v changes that entry and no other. d[size()] is one more row, of size 0; d[i] beyond it is undefined. d[i][j] is the entry j places after the start of row i in the list of all entries, for j of any sign, and undefined outside that list.", "quantifier": "every list of rows with at most 2^31 - 1 rows and entries, all i, j in the range of int", "why_tests_cant": "Every shape of rows, empty ones included, and every position; the tests use one small array.", "anchors": ["src/dnn.ipp:dnn", "src/dnn.ipp:proxy", "src/pybind11", "src/votess.ipp:tmpnn_getdnn"]}
{"id": "C94", "title": "Negative positions and unfilled objects", "statement": "d[i][-1], offered to Python by __getitem__(int), is the last entry of row i if row i has entries. An object made by dnn() has size() 0.", "quantifier": "every list of rows; dnn()", "why_tests_cant": "The first is about every array; both go through conversions to size_t that wrap.", "anchors": ["src/dnn.ipp:proxy::operator[]", "src/dnn.ipp:size", "src/pybind11"]}
{"id": "C95", "title": "The byte of shared edges", "statement": "After any calls of vstatus::set_true with positions 0 to 7 on a new object, get(b) is 1 for the positions given and 0 for the others. For positions 0 to 2, get_nshared_edges() is the number of different positions given, and get_shared_position() is the only one given, or the only one not given, or 255 for none and for all three.", "quantifier": "every sequence of calls, of any length and order", "why_tests_cant": "All sequences of calls.", "anchors": ["src/boundary.ipp:vstatus::get", "src/boundary.ipp:vstatus::set_true", "src/boundary.ipp:vstatus::get_nshared_edges", "src/boundary.ipp:vstatus::get_shared_position"]}
{"id": "C96", "title": "Text as the value of a parameter", "statement": "A text assigned to a parameter is read as white space, a sign if any, decimal digits and anything after them. Read as an int it is that number if it is an int, and throws in every other case. Read as a bool only the numbers 0 and 1 are accepted, so \"true\" throws. For cpu_nthreads 0 means the hardware's number and numbers of magnitude below 2^32 are taken modulo 2^32. The argument of an option of clvotess is that number too, or 0 if there is none.", "quantifier": "every text, every key, every earlier assignments and options", "why_tests_cant": "All texts of any length, including signs, blanks and what follows the digits.", "anchors": ["include/arguments.hpp:from_str", "include/arguments.hpp:vtargs", "src/votess.ipp:__cpu__tesellate", "src/main.cpp:main"]}
{"id": "C97", "title": "A call without points", "statement": "tesellate on the CPU with an empty point set returns, for every k, buffer size and chunk setting, a result of size() 0 that prints as {}, provided the grid resolution is usable and there is a thread; the program does so for an empty file.", "quantifier": "every parameter setting, with and without use_recompute; every scheduling", "why_tests_cant": "All parameter values, among them k = 0, which is undefined behaviour for every other set.", "anchors": ["src/votess.ipp:tesellate", "src/votess.ipp:__cpu__tesellate", "src/votess.ipp:__cpu__recompute", "src/xyzset.ipp:sort", "src/main.cpp:main"]}
{"id": "C98", "title": "The result is a usable Voronoi diagram", "statement": "For points in general position the returned rows describe the diagram completely and without excess: a place is in the cell of a point if and only if it is not nearer to a listed neighbour, and no neighbour can be left out of this test; points nearest to a point are listed for it; two points are connected by neighbours in steps not longer than their distance; going to a nearer neighbour as long as there is one leads from every point to the cell of any place; removing a point changes the cells of its listed neighbours and no others.", "quantifier": "every point set in robust position in single precision, on the CPU and on the device; every point set in general position in exact arithmetic", "why_tests_cant": "All point sets and places of the cube; a geometric statement about rows computed with rounding.", "anchors": ["src/votess.ipp:tesellate", "src/votess.ipp:__cpu__tesellate", "src/votess.ipp:__gpu__tesellate", "src/votess.ipp:tmpnn_getdnn", "src/cc.ipp:cci::compute"]}
{"id": "C99", "title": "Related point sets in single precision", "statement": "Points that are the image of others under a symmetry of the cube (mirror images, rotations, exchanged axes) get the corresponding neighbours, though every number computed is a different one. After removing a point the remaining neighbours stay neighbours, two points that become neighbours were both neighbours of the removed one, and the rows of points that were no neighbours of it list the same points as before.", "quantifier": "every pair of calls on point sets in robust position, with their own order, options and scheduling", "why_tests_cant": "Two runs are compared, over all point sets and all symmetries.", "anchors": ["src/votess.ipp:tesellate", "src/votess.ipp:__cpu__tesellate", "src/votess.ipp:__cpu__recompute", "src/cc.ipp:cci::compute"]}
{"id": "C100", "title": "Larger buffers do no harm", "statement": "A call that differs from one with sufficient buffers only in larger values of cc_p_maxsize and cc_t_maxsize finds the same neighbours.", "quantifier": "every point set in general position (exact arithmetic) or robust position (single precision), every pair of buffer sizes and every scheduling", "why_tests_cant": "Two runs are compared, over all point sets and buffer sizes.", "anchors": ["src/boundary.ipp:boundary::compute", "include/arguments.hpp", "src/votess.ipp:__cpu__tesellate", "src/votess.ipp:__cpu__recompute", "src/cc.ipp:cci::compute"]}
