{"id": "C01", "title": "Tensor/linear index conversion is a bijection", "statement": "For an array built with a shape of positive extents whose element count fits in an int, linear_index maps the valid index tuples one-to-one onto 0..volume()-1 in row-major (last index fastest) order, and tensor_indices is its inverse in both directions.", "quantifier": "every number of dimensions, every positive shape with int-sized volume, every valid tuple and every linear index", "why_tests_cant": "The property is about every shape and every tuple; unit tests sample a handful of small shapes.", "anchors": ["include/IntegrationTools/datastruc/PNDArray.hh: PNDArray::linear_index, tensor_indices, generate_unroll, calc_volume"]}
{"id": "C02", "title": "Element writes are local", "statement": "Storing through operator()(tuple) is read back through the same tuple and through its linear index, and changes no other element, no extent and no volume.", "quantifier": "every array reachable by the API, every pair of index tuples, every stored value", "why_tests_cant": "Aliasing between two distinct tuples would have to be excluded for every pair of tuples of every shape.", "anchors": ["include/IntegrationTools/datastruc/PNDArray.hh: PNDArray::operator(), linear_index"]}
{"id": "C03", "title": "Array bookkeeping stays consistent through any history", "statement": "After any sequence of resize, reshape, clear and element assignments with non-empty positive shapes, order() is the number of extents, volume() is the product of the extents and equals the number of stored elements, and every valid index tuple addresses a stored element (no out-of-bounds access).", "quantifier": "every finite sequence of operations from any constructor", "why_tests_cant": "Invariant over unbounded histories of mutating calls.", "anchors": ["include/IntegrationTools/datastruc/PNDArray.hh: PNDArray::resize, reshape, clear, dim, volume, order"]}
{"id": "C04", "title": "reshape never changes data; resize keeps the linear prefix", "statement": "reshape to an equal volume keeps every element at its linear index and to any other volume terminates the process without touching the array; resize keeps the elements with linear index below min(old,new) volume and default-initialises the rest.", "quantifier": "every array, every new shape", "why_tests_cant": "Both success and failure must be characterised for every pair of shapes.", "anchors": ["include/IntegrationTools/datastruc/PNDArray.hh: PNDArray::reshape, resize, PNDArray(dim,value)"]}
{"id": "C05", "title": "Shape preconditions are exactly: non-empty, non-negative, int-sized", "statement": "Building or resizing an array with a shape is defined behaviour exactly when the shape is non-empty and all the int products the code forms fit in int (negative volume raises length_error); the empty shape is undefined behaviour even though a default-constructed array has it.", "quantifier": "every shape vector of ints", "why_tests_cant": "Undefined behaviour is not observable by a passing test; needs a model in which it is a distinct outcome.", "anchors": ["include/IntegrationTools/datastruc/PNDArray.hh: PNDArray::resize, generate_unroll, calc_volume"]}
{"id": "C06", "title": "A binned item is found from every coordinate of the same bin, and only there", "statement": "After add(item, c), contents(c') ends with item exactly when c' falls in the same grid cell as c; the contents of every other bin are unchanged and earlier contents keep their order.", "quantifier": "every bin grid, every pair of coordinates strictly below the upper limits, every history of additions", "why_tests_cant": "Quantifies over all coordinate pairs and all prior contents.", "anchors": ["include/IntegrationTools/datastruc/Bin.hh: Bin::add, contents, indices"]}
{"id": "C07", "title": "add_range reaches exactly the covered bins, once each, and terminates", "statement": "add_range(item,min,max) with min<=max appends item exactly once to each bin whose grid index lies between the indices of min and max in every dimension, touches no other bin, and terminates.", "quantifier": "every dimension count, every grid, every pair of coordinates min<=max in range", "why_tests_cant": "The odometer loop has to be right for every dimension count and every pair of corner indices; termination is a property of all inputs.", "anchors": ["include/IntegrationTools/datastruc/Bin.hh: Bin::add_range"]}
{"id": "C08", "title": "add_once never creates duplicates", "statement": "After any sequence of add_once calls no bin contains the same item twice, and each added item is in the bin of its coordinate.", "quantifier": "every sequence of add_once calls from an empty grid", "why_tests_cant": "Invariant over unbounded histories.", "anchors": ["include/IntegrationTools/datastruc/Bin.hh: Bin::add_once"]}
{"id": "C09", "title": "Coordinates outside the grid are rejected without side effects", "statement": "A coordinate below min or above max in any dimension makes add, add_once, add_range, contents and indices throw domain_error, and no bin's contents change.", "quantifier": "every grid, every coordinate outside, every prior contents", "why_tests_cant": "Exception safety for every call and state.", "anchors": ["include/IntegrationTools/datastruc/Bin.hh: Bin::indices, add, add_once, add_range, contents"]}
{"id": "C10", "title": "The range check guarantees a valid bin exactly below the upper limit", "statement": "Every coordinate with min <= c < max (all dimensions) maps to a bin index inside the grid; a coordinate equal to the upper limit passes the check but maps to index N, which addresses a bin of a different row or lies outside the storage.", "quantifier": "every grid in exact arithmetic, every accepted coordinate", "why_tests_cant": "A boundary set of measure zero; a test must know to probe it, and an aliasing read looks like success.", "anchors": ["include/IntegrationTools/datastruc/Bin.hh: Bin::indices, Bin::contents"]}
{"id": "C11", "title": "A box registered with add_range is found from every point of the box, even in rounded arithmetic", "statement": "If an item is registered over [min,max] then contents(p) contains it for every p with min<=p<=max in each dimension, for exact reals and for any monotone rounding of subtraction and division (IEEE double without overflow included).", "quantifier": "every grid with positive spacing, every box in range, every point of the box, every monotone rounding", "why_tests_cant": "Rounding at bin borders: a counterexample would be a single double among 2^64.", "anchors": ["include/IntegrationTools/datastruc/Bin.hh: Bin::add_range, contents, indices"]}
{"id": "C12", "title": "max_size bounds every bin", "statement": "max_size() is at least the size of the contents of every bin and is attained by one of them when the grid is non-empty (0 otherwise), whatever has been added.", "quantifier": "every grid and every history of additions", "why_tests_cant": "Universal over bins and histories; PField sizes its scratch buffers with it.", "anchors": ["include/IntegrationTools/datastruc/Bin.hh: Bin::max_size"]}
{"id": "C13", "title": "Element shape functions are a nodal basis", "statement": "For a rectangle (hexahedron) the four (eight) corner functions sum to 1 everywhere, each is 1 at its own node and 0 at the other nodes, and is between 0 and 1 inside the element.", "quantifier": "every element with non-zero edge lengths, every point", "why_tests_cant": "Real-valued identities over all elements and points.", "anchors": ["include/IntegrationTools/pfield/interpolation/Quad.hh: QuadValues, Quad_f", "include/IntegrationTools/pfield/interpolation/Hexahedron.hh: HexahedronValues, Hexahedron_f"]}
{"id": "C14", "title": "Shape function derivatives are the true derivatives", "statement": "grad(coord,i) and hess(coord,i,j) of every corner function equal the mathematical partial derivatives of its value at every point, in 2D and 3D, and the Hessian is symmetric. In 3D this fails for the off-diagonal Hessian entries, which lack the factor of the remaining axis: they are right exactly where the remaining coordinate equals the node's.", "quantifier": "every element with non-zero edge lengths, every corner, every point, every i and j", "why_tests_cant": "Derivative of a function at every point; finite differences only approximate at samples.", "anchors": ["include/IntegrationTools/pfield/interpolation/Quad.hh: Quad_grad_0, Quad_grad_1, Quad_hess_*", "include/IntegrationTools/pfield/interpolation/Hexahedron.hh: Hexahedron_grad_*, Hexahedron_hess_*"]}
{"id": "C15", "title": "Corners jointly recognise exactly the closed rectangle", "statement": "A point lies in the closed rectangle if and only if at least one of the four corner functions of that element reports is_in_range.", "quantifier": "every axis-aligned rectangle with positive edges, every point", "why_tests_cant": "Boundary points of every rectangle.", "anchors": ["include/IntegrationTools/pfield/interpolation/Quad.hh: QuadValues::is_in_range, min, max"]}
{"id": "C16", "title": "Corners of a hexahedron recognise the closed box", "statement": "A point reported is_in_range by a corner function of a hexahedral element should lie in the closed hexahedron; the check ignores the third coordinate, so exactly the infinite vertical column over the element is recognised.", "quantifier": "every axis-aligned box, every point", "why_tests_cant": "Only points outside the element in z expose it.", "anchors": ["include/IntegrationTools/pfield/interpolation/Hexahedron.hh: HexahedronValues::is_in_range"]}
{"id": "C17", "title": "eval_grad / eval_hess refresh every derivative of an element function", "statement": "After eval_grad(var) (eval_hess(var)) every stored gradient (Hessian) component equals the component evaluated at var. Holds for the 2D element function; for the 3D one it fails for the third gradient component and the five Hessian components with an index 2.", "quantifier": "every previous state of the object, every var", "why_tests_cant": "Staleness depends on the history before the call.", "anchors": ["include/IntegrationTools/pfield/interpolation/Quad.hh: Quad::eval_grad, eval_hess", "include/IntegrationTools/pfield/interpolation/Hexahedron.hh: Hexahedron::eval_grad, eval_hess"]}
{"id": "C18", "title": "A 2D field is the bilinear interpolant of its nodal values", "statement": "Evaluating a 2D field at any point of the meshed region returns the bilinear interpolation of the nodal values of an element containing the point; gradient and Hessian components are the derivatives of that interpolant.", "quantifier": "every rectilinear mesh read in, every nodal data vector, every point of every closed element, every earlier use of the field object", "why_tests_cant": "Universal over meshes, data, points and evaluation history.", "anchors": ["include/IntegrationTools/pfield/PField.hh: PField::operator(), grad, hess", "include/IntegrationTools/pfield/Mesh.hh: Mesh::basis_functions, grad_basis_functions, hess_basis_functions"]}
{"id": "C19", "title": "Nodal values are reproduced and interpolation obeys the maximum principle", "statement": "A 2D field evaluated at a mesh node returns that node's value, and anywhere in the mesh the result lies between the smallest and largest nodal value of the element; affine nodal data are reproduced exactly.", "quantifier": "every mesh, every nodal data vector, every point of the mesh", "why_tests_cant": "Universal over data and points.", "anchors": ["include/IntegrationTools/pfield/PField.hh: PField::operator()", "include/IntegrationTools/pfield/Mesh.hh: Mesh::basis_functions"]}
{"id": "C20", "title": "The value on a shared edge does not depend on the element chosen", "statement": "For two elements of a mesh sharing an edge (or corner) by node number, interpolation in either gives the same value on the shared edge, so the field is continuous across elements.", "quantifier": "every pair of edge-sharing elements, every data vector, every point of the edge", "why_tests_cant": "Continuum of points and choice of element driven by insertion order.", "anchors": ["include/IntegrationTools/pfield/Mesh.hh: Mesh::basis_functions", "include/IntegrationTools/pfield/interpolation/Quad.hh: Quad_f"]}
{"id": "C21", "title": "Field evaluation does not depend on earlier evaluations", "statement": "Inside the meshed region the value, gradient and Hessian returned depend only on the coordinates. Outside the mesh but within one bin of it the call neither throws nor returns a fixed value: it re-uses basis values left by an earlier call.", "quantifier": "every sequence of earlier calls, every coordinate", "why_tests_cant": "Needs all call histories; the out-of-mesh case silently returns plausible numbers.", "anchors": ["include/IntegrationTools/pfield/Mesh.hh: Mesh::basis_functions", "include/IntegrationTools/pfield/PField.hh: PField::operator(), grad, hess"]}
{"id": "C22", "title": "3D field evaluation uses an element containing the point", "statement": "Evaluating a 3D field at a point of the mesh should interpolate in an element containing the point; because the element search ignores z, a bin shared by two layers makes the field extrapolate from the wrong layer.", "quantifier": "every hexahedral mesh, every data vector, every point", "why_tests_cant": "Wrong layer gives plausible values; depends on the relation between bin borders and layer heights.", "anchors": ["include/IntegrationTools/pfield/Mesh.hh: Mesh::basis_functions", "include/IntegrationTools/pfield/interpolation/Hexahedron.hh: HexahedronValues::is_in_range"]}
{"id": "C23", "title": "Stored field results are those of the last evaluation", "statement": "operator()(), grad(i) and hess(i,j) without coordinates return what the most recent evaluation of that component returned; eval_grad and eval_hess refresh all components to the values the single-component calls would return; a throwing call changes none of them.", "quantifier": "every sequence of calls on a field object", "why_tests_cant": "Histories of interleaved calls and exceptions.", "anchors": ["include/IntegrationTools/pfield/PField.hh: PField::eval, eval_grad, eval_hess, operator()(), grad, hess"]}
{"id": "C24", "title": "Field scratch buffers are never overrun", "statement": "For a field constructed after its mesh was read, no evaluation writes or reads outside its scratch buffers or its nodal data, for any coordinate and any history.", "quantifier": "every mesh, every coordinate, every call sequence", "why_tests_cant": "Memory safety over all inputs; overruns are often silent.", "anchors": ["include/IntegrationTools/pfield/PField.hh: PField::PField, operator()", "include/IntegrationTools/pfield/Mesh.hh: Mesh::basis_functions, max_bin_size"]}
{"id": "C25", "title": "Reading a mesh builds a search grid that covers it", "statement": "After a well-formed file with at least two distinct coordinates per axis is read, every node and every point of every element is strictly inside the search grid (no evaluation in the mesh throws), and min/max report the extreme coordinates.", "quantifier": "every set of node coordinates", "why_tests_cant": "Universal over meshes, including negative, non-uniform and unsorted coordinates.", "anchors": ["include/IntegrationTools/pfield/Mesh.hh: Mesh::read_vtk, add_once, min, max"]}
{"id": "C26", "title": "Reading back a well-formed VTK text yields the mesh and fields in it", "statement": "For every text laid out as the supported VTK form, reading produces exactly its nodes, its elements' interpolating functions and its named point data, and find_scalar_field(name) returns the first field of that name or throws invalid_argument.", "quantifier": "every well-formed file (any number of points, cells, fields; extra unknown lines)", "why_tests_cant": "Universal over files.", "anchors": ["include/IntegrationTools/pfield/Mesh.hh: Mesh::read_vtk", "include/IntegrationTools/pfield/Body.hh: Body::read_vtk, find_scalar_field"]}
{"id": "C27", "title": "Reading a file terminates", "statement": "Body::read_vtk terminates for every file. It does not: a missing file or one malformed number puts the stream in a failed state in which end-of-file is never reported and the read loop runs forever.", "quantifier": "every byte content of the file, including a missing file", "why_tests_cant": "Non-termination cannot be established by a test.", "anchors": ["include/IntegrationTools/pfield/Mesh.hh: Mesh::read_vtk", "include/IntegrationTools/pfield/Body.hh: Body::read_vtk"]}
{"id": "C28", "title": "Function wrappers own exactly one object", "statement": "For every program using PFunction / PSimpleFunction / PBasisSet construction, copy, assignment, set and destruction (no assignment from itself or from an empty wrapper), no object is freed twice or used after being freed, copies never share state, and when all wrappers are destroyed every object they owned has been freed.", "quantifier": "every finite program over any number of wrappers", "why_tests_cant": "Memory safety and leak freedom over all programs.", "anchors": ["include/IntegrationTools/pfunction/PFunction.hh: PFunction", "include/IntegrationTools/pfunction/PSimpleFunction.hh: PSimpleFunction", "include/IntegrationTools/pfunction/PBasisSet.hh: PBasisSet"]}
{"id": "C29", "title": "Wrapper assignment is safe", "statement": "Assigning a wrapper to itself or from an empty wrapper should be harmless; it is undefined behaviour in all three wrapper classes, and those are the only undefined uses of assignment.", "quantifier": "every wrapper state", "why_tests_cant": "Use-after-free may pass every test.", "anchors": ["include/IntegrationTools/pfunction/PFunction.hh: PFunction::operator=", "include/IntegrationTools/pfunction/PSimpleFunction.hh: PSimpleFunction::operator=", "include/IntegrationTools/pfunction/PBasisSet.hh: PBasisSet::operator="]}
{"id": "C30", "title": "Evaluate-then-get agrees with evaluate-and-return", "statement": "For the function classes, the value returned by evaluation equals the value returned by the getter afterwards until the next evaluation of the same quantity, and evaluating derivatives does not disturb the stored value.", "quantifier": "every history of evaluations on every function object without piecewise parts", "why_tests_cant": "Universal over histories.", "anchors": ["include/IntegrationTools/pfunction/PSimpleBase.hh: PSimpleBase", "include/IntegrationTools/pfunction/PFlexFunction.hh: PFlexFunction"]}
{"id": "C31", "title": "Basis set caches hold the last evaluation of each term", "statement": "After any history, the getter of term i (value, gradient or Hessian) returns the result of the most recent evaluation of that term and kind; evaluating all terms refreshes all of them at once; resize keeps the stored results of surviving terms.", "quantifier": "every history of evaluate/resize calls, every term", "why_tests_cant": "Universal over histories.", "anchors": ["include/IntegrationTools/pfunction/PBasisSetBase.hh: PBasisSetBase::eval, eval_grad, eval_hess, operator(), grad, hess, resize"]}
{"id": "C32", "title": "Series evaluation is the tensor-product sum", "statement": "A series over basis sets of sizes n1..nd with coefficient tensor c evaluates at x to the sum over all index tuples of c(tuple) times the product of the basis functions at x, whatever was evaluated before.", "quantifier": "every number of variables, all basis sizes, all coefficients, all points, all histories", "why_tests_cant": "Universal over dimension, sizes, coefficients and histories.", "anchors": ["include/IntegrationTools/pfunction/PSeriesFunction.hh: PSeriesFunction::operator(), eval, calc_val"]}
{"id": "C33", "title": "Series derivatives after eval_grad/eval_hess are the partial derivatives", "statement": "After eval_grad(x) (eval_hess(x)) the getters return the true first (second) partial derivatives of the series at x if the basis sets' derivatives are true derivatives; the Hessian is symmetric.", "quantifier": "every series, every point, every index pair, every history", "why_tests_cant": "Analytic statement at every point.", "anchors": ["include/IntegrationTools/pfunction/PSeriesFunction.hh: PSeriesFunction::eval_grad, eval_hess, calc_grad_val, calc_hess_val"]}
{"id": "C34", "title": "Single-call series derivatives depend only on the point", "statement": "grad(x,i) and hess(x,i,j) should return the derivative at x whatever was evaluated before; they do so when the basis values (for hess also gradients) were last evaluated at x, and otherwise combine fresh derivatives with stale factors, or read outside the cache.", "quantifier": "every series, every point, every history", "why_tests_cant": "Tests that evaluate the value first at the same point can never see it.", "anchors": ["include/IntegrationTools/pfunction/PSeriesFunction.hh: PSeriesFunction::grad, hess", "include/IntegrationTools/pfunction/PBasisSet.hh: PBasisSet::operator()(int)"]}
{"id": "C35", "title": "A series is linear in its coefficients and starts at zero", "statement": "Value, gradient and Hessian of a series are linear in the coefficient tensor; immediately after construction or set() all coefficients are zero and the series vanishes identically.", "quantifier": "every pair of coefficient tensors and scalars, every point", "why_tests_cant": "Universal over coefficients.", "anchors": ["include/IntegrationTools/pfunction/PSeriesFunction.hh: PSeriesFunction::set, coeff, calc_val"]}
{"id": "C36", "title": "Coefficients survive print and read", "statement": "Reading back the text written by print_coeff into a series of the same shape restores every coefficient, provided the number printer/reader pair round-trips. From a text that breaks off or goes on with something else than an int, the rows before are read, the other coefficients keep their values, and only the stream state tells.", "quantifier": "every shape, every coefficient tensor", "why_tests_cant": "Universal over shapes; a wrong order is invisible in symmetric samples.", "anchors": ["include/IntegrationTools/pfunction/PSeriesFunction.hh: PSeriesFunction::print_coeff, read_coeff"]}
{"id": "C37", "title": "A series used through the general function interface", "statement": "A series held as a general function evaluates to the same value; its derivatives, however, are not reachable through that interface: grad and hess always raise runtime_error because the signatures differ.", "quantifier": "every series, every point, every call", "why_tests_cant": "Holds for all inputs; a test of the concrete class never takes this path.", "anchors": ["include/IntegrationTools/pfunction/PSeriesFunction.hh: PSeriesFunction::grad, hess", "include/IntegrationTools/pfunction/PFuncBase.hh: PFuncBase::grad, hess"]}
{"id": "C38", "title": "Piecewise evaluation uses the first matching piece", "statement": "Value, gradient and Hessian of a piecewise function at v are those of the first piece all of whose conditions hold at v; if there is none the call throws domain_error and in_piece(v) is false.", "quantifier": "every list of pieces and conditions, every v", "why_tests_cant": "Universal over piece lists and overlaps.", "anchors": ["include/IntegrationTools/piecewise/PPieceWiseFuncBase.hh: PPieceWiseFuncBase::piece, in_piece, operator(), grad, hess", "include/IntegrationTools/piecewise/Piece.hh: Piece::in_piece"]}
{"id": "C39", "title": "The simple-function view of a piecewise function agrees with it", "statement": "simplefunction(), grad_simplefunction(i) and hess_simplefunction(i,j) return functions that give, for every v, the same value or the same domain_error as the piecewise function itself.", "quantifier": "every piecewise function, every v, every i, j", "why_tests_cant": "Equality of two functions at every input.", "anchors": ["include/IntegrationTools/piecewise/PPieceWiseFuncBase.hh: PPieceWiseFuncBase::simplefunction, grad_simplefunction, hess_simplefunction", "include/IntegrationTools/piecewise/PPieceWiseSimpleBase.hh: PPieceWiseSimpleBase::eval", "include/IntegrationTools/piecewise/Piece.hh: Piece::simplepiece"]}
{"id": "C40", "title": "Stored results of a piecewise function", "statement": "After evaluating the value at v, operator()() should return it until the next value evaluation; evaluating a derivative at a point of another piece switches the piece the getter reads from, so the getter then returns that piece's old or uninitialised value. Within one piece, and after failed evaluations, the stored results are right. The conditions of a piece, as condition() returns them, store their values at the last point tested: true up to the first false one, false there, and the later ones (and one that throws) keep what they had.", "quantifier": "every history of evaluations", "why_tests_cant": "Depends on interleavings of value and derivative evaluations across pieces.", "anchors": ["include/IntegrationTools/piecewise/PPieceWiseFuncBase.hh: PPieceWiseFuncBase::_curr_piece, operator()(), grad, hess"]}
{"id": "C41", "title": "Printed forms of piecewise functions are made of the parts' printed forms", "statement": "csrc, sym and latex of a (piecewise) piece list each part's own csrc, sym or latex form with the documented separators; latex of a piece with three or more conditions instead prints the middle conditions in sym form, and latex of an empty piecewise function is unbalanced.", "quantifier": "every list of pieces, every list of conditions", "why_tests_cant": "Universal over list lengths.", "anchors": ["include/IntegrationTools/piecewise/SimplePiece.hh: SimplePiece::csrc, sym, latex", "include/IntegrationTools/piecewise/PPieceWiseSimpleBase.hh: csrc, sym, latex"]}
{"id": "C42", "title": "PFlexFunction accepts exactly consistent inputs", "statement": "Constructing or setting a PFlexFunction terminates the process unless the derivative lists match the number of variables; when accepted, value, gradient and Hessian are those of the given simple functions. clear() and copying a default-constructed object are undefined behaviour.", "quantifier": "every combination of list lengths", "why_tests_cant": "Universal over sizes; undefined behaviour is invisible to tests.", "anchors": ["include/IntegrationTools/pfunction/PFlexFunction.hh: PFlexFunction::check, set, clear, PFlexFunction"]}
{"id": "C43", "title": "The library scanner files every class exactly once and keeps its tables rectangular", "statement": "After scanning any sequence of files, every table is |input types| x |output types|, input and output types are distinct, no class name appears twice in a cell, and every piecewise class is also filed as an ordinary function of the same types.", "quantifier": "every sequence of files and lines", "why_tests_cant": "Invariant over unbounded histories.", "anchors": ["src/lw/lw.cpp: Collection::scanfile, scanline_for_class, add_intype, add_outtype"]}
{"id": "C44", "title": "Generated checkout returns the requested class or throws", "statement": "In the generated library, checkout(name, f) for given types yields an instance of the class called name exactly when the scanner filed a class of that name under those types, and throws runtime_error otherwise; every checkout declared in the generated header is defined in the generated source and vice versa.", "quantifier": "every collection, every name, every variable-container list", "why_tests_cant": "Universal over generated programs.", "anchors": ["src/lw/lw.cpp: write_header, write_source"]}
{"id": "C45", "title": "Type strings are compared modulo layout", "statement": "Two classes with the same template arguments up to white space should be filed under the same types; the scanner keeps trailing blanks and splits at the last comma, so layout and commas inside the output type change the filing.", "quantifier": "every source line declaring a class", "why_tests_cant": "Universal over source lines.", "anchors": ["src/lw/lw.cpp: Collection::scanline_for_class"]}
{"id": "C46", "title": "C handles are nulled on deletion and basis sizes survive the C interface", "statement": "Each *_delete in the C interface frees the object and nulls the caller's handle so that a second delete through the same handle is harmless; PBasisSet_dd_max_size reports the limit, except that an unlimited basis set reports -1 because the value is squeezed into int.", "quantifier": "every sequence of C calls on any handles", "why_tests_cant": "Memory safety over call sequences.", "anchors": ["src/c/PExtern.cc: *_new, *_delete, PBasisSet_dd_max_size", "include/IntegrationTools/pfunction/PBasisSet.hh: PBasisSet::max_size"]}
{"id": "C47", "title": "The sample polynomial libraries are what their names say", "statement": "The sample basis sets' functions are x^n and the Chebyshev polynomials T_n with their true first and second derivatives, and the sample functions' gradients and Hessians are the true derivatives of their values, for every argument.", "quantifier": "every real argument, every term below the limit of 30", "why_tests_cant": "Real identities for all x.", "anchors": ["tests/testlib/Monomial.hh", "tests/testlib/Chebyshev.hh", "tests/testlib/Quadratic.hh", "tests/testlib/MyFunc.hh"]}
{"id": "C48", "title": "A second file read into the same body", "statement": "Body::read_vtk called on a body that already holds a mesh appends the new nodes, interpolators and fields to those present, numbers the nodes of the new cells from the first of the OLD nodes, and takes box and bins from the new file only. Hence reading the same file again doubles every new field's value, makes the earlier fields (the ones found by name) overrun their scratch vectors, and a file whose box does not contain the earlier mesh is refused with domain_error.", "quantifier": "every file of the supported form, every body produced by earlier reads, every history of evaluations, every point of the mesh", "why_tests_cant": "Universal over files, meshes and evaluation histories; the out-of-bounds writes need not be visible in a run.", "anchors": ["include/IntegrationTools/pfield/Body.hh: Body::read_vtk, find_scalar_field", "include/IntegrationTools/pfield/Mesh.hh: Mesh::read_vtk, basis_functions", "include/IntegrationTools/pfield/PField.hh: PField"]}
{"id": "C49", "title": "Lifetimes of bodies, meshes, fields and their clones", "statement": "A program that uses bodies, fields and clones of fields only while they (and the body whose mesh they point to) are alive, and copies no body, has no undefined behaviour and leaves nothing in memory - provided Interpolator had a virtual destructor. It has none, so destroying any body into which a file with at least one cell was read is undefined behaviour (a derived object deleted through Interpolator*). Copying or assigning a body makes both delete the same objects; a copied body's fields, and a field cloned into a PFunction, keep pointing to the first body's mesh.", "quantifier": "every sequence of operations on any number of bodies, every supported file", "why_tests_cant": "Undefined behaviour is invisible to tests; lifetimes range over all programs.", "anchors": ["include/IntegrationTools/pfield/Mesh.hh: Mesh::~Mesh, _interp, _bfunc", "include/IntegrationTools/pfield/interpolation/Interpolator.hh: Interpolator", "include/IntegrationTools/pfield/Body.hh: Body", "include/IntegrationTools/pfield/PField.hh: PField::_mesh, clone", "src/c/PExtern.cc: Body2D_delete, Body3D_delete"]}
{"id": "C50", "title": "Files of unsupported content are not rejected", "statement": "Mesh::read_vtk checks neither the number of corners of a cell nor the node numbers it names, nor that there are points at all: a 2D (3D) file with a cell of fewer than 4 (8) corners or with a corner that is not a node, or with no points, is read out of bounds. A cell type other than 9 and 12 ends the process with exit() after the mesh was built. A field with fewer data than nodes is accepted; evaluating it at a point of any cell with a corner that has no datum reads out of bounds. Numbers may have a sign; a negative one stands for its residue modulo 2^64, so a negative number of points throws length_error.", "quantifier": "every text of the form, every tail after the offending part, every arithmetic; every evaluation history", "why_tests_cant": "Universal over file contents; out-of-bounds reads need not be visible in a run.", "anchors": ["include/IntegrationTools/pfield/Mesh.hh: Mesh::read_vtk", "include/IntegrationTools/pfield/Body.hh: Body::read_vtk", "include/IntegrationTools/pfield/PField.hh: PField::operator(), grad, hess"]}
{"id": "C51", "title": "A result depends on one element's data, and non-finite numbers are not contained", "statement": "At a point claimed by an interpolator, the value and derivatives of a field depend only on the data at the corners of one element, chosen without looking at the data: in real numbers always, in IEEE doubles bit for bit provided all data are finite. With an infinite or NaN datum at another node of the bin the result is NaN. A coordinate that is infinite or NaN is never answered: the call throws domain_error or converts a non-number to int (undefined behaviour), and NaN as first coordinate always does the latter.", "quantifier": "every mesh read, every pair of data, every point, every evaluation history; every double as coordinate", "why_tests_cant": "Bitwise independence of all other data, universal over meshes and doubles.", "anchors": ["include/IntegrationTools/pfield/Mesh.hh: Mesh::basis_functions", "include/IntegrationTools/pfield/PField.hh: PField::operator(), grad, hess", "include/IntegrationTools/datastruc/Bin.hh: Bin::indices"]}
{"id": "C52", "title": "Names, basis sets and series through the C interface", "statement": "The name and description functions copy text and NUL into a buffer that is long enough, without touching the rest, and overrun a shorter one. Checking out a basis set makes a new set of the named class, ends the program for too many terms, throws length_error for a negative number and runtime_error for an unknown name. PSeriesFunction_dsis_setnew copies the given sets with their stored results; _set checks them out anew by name and size, so the functions are the same but stored results are lost, and a set of a class the library does not have makes it throw without changing the series. No sets at all, NULL pointers and an order beyond the array are undefined behaviour. Coefficients are assigned and read alike by indices and by position. Over the sample library's sets the series, its gradient and its Hessian are those of the sum of coefficients times products of x^n and T_n.", "quantifier": "every text and buffer, every library, every basis sets and their histories, every order, coefficient and real point", "why_tests_cant": "Universal over buffers, libraries and histories; buffer overruns need not be visible in a run.", "anchors": ["src/c/PExtern.cc: *_name, *_description, PBasisSet_dd_new, PSeriesFunction_dsis_*", "include/IntegrationTools/pfunction/PSeriesFunction.hh: set", "tests/testlib/Monomial.hh", "tests/testlib/Chebyshev.hh"]}
{"id": "C53", "title": "The Python package", "statement": "Each of the 88 ctypes calls of the Python classes is of the C function the method is for with the argument types it takes, except in 12 methods: the seven name/description methods (which make the C function write to the eight bytes of a null pointer: None for an empty name, undefined behaviour for any other), PFunc_dsd.get_grad and get_hess (which call PFunction_dsd_get), PSeries_dsis.calc_basis_grad and calc_basis_hess (superfluous arguments) and linear_index (a missing function). PSeries_dsis() without basis sets is undefined behaviour, with sets it is the zero series over them. print_coeff writes what the C++ function would; read_coeff takes the last word of each line, and raises IndexError or ValueError on a short or wrong text after replacing the coefficients before it; reading undoes printing when float undoes str - which no printing with up to 16 digits (12 in Python 2, 6 in a C++ stream) allows, while 17 digits tell all doubles apart.", "quantifier": "every call, every name, every basis, every series shape and coefficients, every text, every double and digit count", "why_tests_cant": "Universal over texts, shapes and doubles; wrong ctypes calls corrupt memory silently.", "anchors": ["src/python/pfunction/*.py", "src/c/PExtern.cc", "include/IntegrationTools/pfunction/PSeriesFunction.hh: print_coeff"]}
{"id": "C54", "title": "Pointers to the fields of a body", "statement": "A field pointer obtained with ScalarField2D/3D is good as long as its body: for every program of the C interface and every growth policy of std::vector the caller sees what it would see if fields were named by body and position. Finding a field succeeds exactly when there is one of that name and otherwise throws invalid_argument without touching the pointer. After the body is deleted every call through the pointer is undefined behaviour, also when a new body is made in the same variable; deleting the pointer with PFunction_dsd_delete is undefined behaviour at any time. In C++, a further read_vtk into the body leaves the pointer valid exactly when the vector has room for the new fields.", "quantifier": "every program over any number of body and field variables, every field type, every growth policy", "why_tests_cant": "Universal over programs; dangling pointers are often readable in a run.", "anchors": ["src/c/PExtern.cc: ScalarField2D, ScalarField3D, Body2D_new, Body2D_delete, PFunction_dsd_*", "include/IntegrationTools/pfield/Body.hh: scalar_field, read_vtk, find_scalar_field"]}
{"id": "C55", "title": "The generated library is independent of file order and fits the C interface", "statement": "Which functions the library writer generates, what each hands out, and whether it exits instead, does not depend on the order of the files, of the classes in them, or of the variable containers. A function is declared exactly when a class is filed under its types (or as a template over the container, its input type being one of the containers), and a class handed out is declared in a file the source includes. The C interface links with the library exactly if it has a simple function for double* and for double, a function for double* and a basis set for double; not every library has. A class name used twice with different base classes or types is not noticed.", "quantifier": "every list of files and containers, every permutation, every function", "why_tests_cant": "Directory order differs between file systems; universal over libraries.", "anchors": ["src/lw/lw.cpp: PLibraryWriter", "src/c/PExtern.cc", "include/IntegrationTools/extern/PLibraryExtern.hh"]}
{"id": "C56", "title": "The generated library as C++ text", "statement": "The texts of PLibrary.hh and PLibrary.cc, taken apart by an independent reader of the few C++ forms they use, are the functions of the structural model: same parameters, same order, and branches that assign a new object of the class named (copied into the parameter's type unless it is a pointer), ending in a throw. Every class spelled in a scanned file, whatever the layout of its declaration, can be checked out from a function whose parameter is its base class for its types, template classes for each container if neither blank nor comma follows the container. Two classes whose types differ in layout only give two definitions of the same function, and a template class with a comma in its output type gives text naming an unknown type.", "quantifier": "every list of files, containers and stamps whose names and types can stand in a text; every layout", "why_tests_cant": "Universal over libraries and layouts; the generated code is only compiled for the libraries at hand.", "anchors": ["src/lw/lw.cpp: write_header, write_source"]}
{"id": "C57", "title": "A run of the library writer", "statement": "A run writes PLibrary.hh and PLibrary.cc (and PExtern.cc) at its location and nothing else. It ends normally exactly when all directories are there and no class is declared twice; then header and source declare and define the library of the classes declared, even if the two scans list the directories in different orders. What it writes is never scanned, so running it again gives the same library. A class declared twice or a missing directory ends the program with PLibrary.hh empty and an old PLibrary.cc in place; a location that does not exist is not noticed at all. Every class is declared in a file the source includes if headers of the same name agree; of two different headers of one name only one is included.", "quantifier": "every disk content, location, directories, containers, listing orders and times", "why_tests_cant": "Universal over file systems and listing orders.", "anchors": ["src/lw/lw.cpp: main, Collection, scandir, write_header, write_source, now"]}
{"id": "C58", "title": "Rounding errors of field evaluation on rectangles", "statement": "In IEEE doubles, for a mesh of rectangles of any size whose coordinates are finite and resolved (average spacing not below 2^-46 of the coordinates): reading mesh and field succeeds; at every finite point of the mesh, whatever was evaluated before, the value is within 20u times the sum of the absolute corner data (plus 8 half-denormals) of the bilinear interpolant of an element at that point; away from element edges first and mixed second derivatives are within 15u times that sum over the edge length (product of edge lengths); the second derivatives along one axis are exactly zero. First derivatives on edges are refuted: constant data 1 on [-1,0.4]x[0,1] gives 0.714 at x=0.4.", "quantifier": "every mesh of rectangles, every finite data, every finite point, every earlier use of the field", "why_tests_cant": "Roundoff bounds over all doubles; the wrong gradient shows only where the last bits of corner boxes and bins disagree.", "anchors": ["include/IntegrationTools/pfield/PField.hh: eval", "include/IntegrationTools/pfield/Mesh.hh: min_cell/Bin, add_once, basis_functions", "include/IntegrationTools/pfield/interpolation/Quad.hh: is_in_range, QuadValues", "include/IntegrationTools/datastruc/Bin.hh", "include/IntegrationTools/pfield/interpolation/Interpolator.hh"]}
{"id": "C59", "title": "Rounding errors of series evaluation", "statement": "In IEEE doubles, for a series over any number of basis sets of any sizes whose functions are computed with relative error delta (with respect to given bounds): the value after any history is finite and differs from the exact series of the exact functions by at most ((1+delta)^d (1+u)^(d+N) - 1) times the sum over all terms of |coefficient| times the product of the bounds, d the number of variables and N the number of coefficients; the same for the gradient stored by eval_grad and the Hessian stored by eval_hess against the true partial derivatives. The factor is at most 2(d delta + (d+N) u). No product or sum of the sizes may come near overflow or underflow.", "quantifier": "every number and size of basis sets, every coefficients, functions and points in range, every earlier use", "why_tests_cant": "A bound over all doubles and all shapes; rounding errors are not visible in a few test values.", "anchors": ["include/IntegrationTools/pfunction/PSeriesFunction.hh: calc_val, calc_grad_val, calc_hess_val"]}
{"id": "C60", "title": "Rounding errors of the sample polynomial sets", "statement": "In IEEE doubles every value, first and second derivative of the Chebyshev set on [-1,1] is finite and within 41u times the corresponding derivative of the polynomial with all signs positive (which grows at most like (1+sqrt 2)^n) of the exact one, plus 2^-980; monomials are within 29u of the exact values on [-1024,1024] apart from underflow. So Chebyshev values are within 0.0003 - but not within 0.00001: T_29 near x=0.99842 is off by more than that, although it is at most 1 there. Series of Chebyshev polynomials or of monomials in any number of variables inherit the bound for value, gradient and Hessian.", "quantifier": "every set size and history, every term, every double in the interval; every number of variables, coefficients and points", "why_tests_cant": "A bound over all doubles; the digits lost to cancellation show at few points only.", "anchors": ["tests/testlib/Monomial.hh", "tests/testlib/Chebyshev.hh", "include/IntegrationTools/pfunction/PBasisSet.hh", "include/IntegrationTools/pfunction/PSeriesFunction.hh: calc_val, calc_grad_val, calc_hess_val"]}
{"id": "C61", "title": "Hard-coded function objects own their parts", "statement": "An object of Quad, Hexahedron, Quadratic, MyFunc or a piece of MyPieceWiseFunc consists of separately allocated parts behind pointers and arrays of pointers. Every program that makes, copies, clones, destroys, evaluates and reads objects of one class sees exactly what it would see if the objects were values: copies are independent, no part is used after or freed before its time, and after any program the memory held is that of the objects alive, nothing more. Quadratic and MyFunc may also be assigned. Copies of the other classes lose the stored results: reading one is undefined. Assigning Quad or Hexahedron (implicit operator=) makes two objects share parts: destroying one leaves the other dangling, destroying both frees twice. Assigning a piece of MyPieceWiseFunc ends without a return value.", "quantifier": "every sequence of operations on every number of objects, every number of variables, every evaluation arguments", "why_tests_cant": "Ownership over all sequences of operations; tests copy at most once and never assign.", "anchors": ["include/IntegrationTools/pfield/interpolation/Quad.hh: Quad", "include/IntegrationTools/pfield/interpolation/Hexahedron.hh: Hexahedron", "tests/testlib/Quadratic.hh", "tests/testlib/MyFunc.hh", "tests/testlib/MyPieceWiseFunc.hh"]}
{"id": "C62", "title": "Generated basis sets behave as families of functions", "statement": "Objects of the classes that littlewriter generates for basis sets (Monomial, Chebyshev) hold one wrapped function object per term and rebuild and copy these on construction, copying, assignment and resizing. Every program that makes, copies, assigns, resizes, evaluates, reads and destroys such sets sees exactly what it would see if a set were a value made of a family of functions and its last results; in particular every evaluation of an existing term after any history returns the power or Chebyshev polynomial, or its derivative, and resizing or copying keeps the results.", "quantifier": "every sequence of operations on every number of sets, every sizes, terms and points, every arithmetic", "why_tests_cant": "Equivalence over all sequences of operations; tests evaluate one freshly built set.", "anchors": ["tests/testlib/Monomial.hh", "tests/testlib/Chebyshev.hh", "include/IntegrationTools/pfunction/PBasisSetBase.hh", "include/IntegrationTools/pfunction/PFunction.hh: operator="]}
{"id": "C63", "title": "Decimal text of doubles and saved coefficients", "statement": "operator>> on a decimal numeral in any notation that ends at a blank stores the nearest double with the sign written (the largest double, failing, on overflow), and stops there. operator<< prints a finite double as a numeral that denotes its value rounded to the precision's digits. With the default precision of six every finite double printed can be read: the value is within 5.000001e-6 of itself (plus half of the smallest double), numbers written with six digits come back exactly, and above 2^-1050 the text printed after reading is the same; with 17 digits every double comes back exactly. So saving coefficients with print_coeff and reading them with read_coeff loses at most this, and saving again writes the same table. A printed coordinate is the texts of its numbers with one blank between two of them, and reading its numbers back has the same guarantees. Evaluating the series read gives a value, gradient and Hessian within the rounding errors of the evaluation and 5.000002e-6 of the sum of the sizes of the terms of those meant (with 17 digits: the very same doubles). False for tiny coefficients (the text may change) and infinite ones (0 is stored, the later coefficients are not read, and only the stream's state tells).", "quantifier": "every finite double, every precision, every numeral and following text; every shape and coefficients of a series", "why_tests_cant": "All doubles and all texts; tests use a few short decimals.", "anchors": ["include/IntegrationTools/pfunction/PSeriesFunction.hh: print_coeff, read_coeff", "include/IntegrationTools/pfield/Coordinate.hh: operator<<", "include/IntegrationTools/pfield/Mesh.hh: read_vtk", "include/IntegrationTools/pfield/Body.hh: read_vtk"]}
{"id": "C64", "title": "Fields read from decimal files, in doubles", "statement": "Let a VTK file, with its numbers in any decimal notation, describe a mesh of rectangles (coordinates different as doubles and resolved) and a value for every point. Body<double>::read_vtk reads it, find_scalar_field finds the first field of a name, and at every double point of the mesh its value is finite and within 22u times the sum of the corner values of the bilinear interpolant of the numbers as written in the file on a rectangle of the file, plus what rounding the coordinates moves the corners relative to the cell, plus 16 tiny. The same holds for one layer of boxes with the trilinear interpolant, 35u and 21 tiny. First and mixed second derivatives on rectangles and first derivatives on one layer of boxes, away from the edges or faces crossed, obey corresponding bounds relative to the rounded edges. False without the condition on the coordinates: a file with two coordinates that are the same double describes a mesh of rectangles, and reading it is undefined behaviour.", "quantifier": "every file text, every number notation, mesh, fields and point of the mesh", "why_tests_cant": "All texts of all numbers; the rounding of coordinates shows on narrow cells far from the origin only.", "anchors": ["include/IntegrationTools/pfield/Body.hh: read_vtk, find_scalar_field", "include/IntegrationTools/pfield/Mesh.hh: read_vtk", "include/IntegrationTools/pfield/interpolation/Quad.hh: QuadValues", "include/IntegrationTools/pfield/PField.hh: operator()"]}
{"id": "C65", "title": "Basis products of one term of a series", "statement": "basis(term,var), basis_grad(term,var,di) and basis_hess(term,var,di,dj), after any history and in any arithmetic, return the product of the term's basis functions with the factors of the variables named differentiated once or twice, multiplied from the left starting at the identity value; they store exactly those factors and change nothing else (coefficients, stored value, gradient, Hessian, other stored results). basis(term), basis_grad(term,di), basis_hess(term,di,dj) return the same product of stored results. basis(bindex,term,var) etc. return and store one factor, and eval_basis, eval_basis_grad, eval_basis_hess (of one or of all basis sets) store exactly their functions at the point. Over the reals the results are the product of basis functions and its true first and second partial derivatives. A di that is no variable is not refused: basis_grad then returns the undifferentiated product.", "quantifier": "every series and history, every valid term, point, and every pair of variables", "why_tests_cant": "All terms, points, variable pairs and histories of stored results; the unit tests never call these functions.", "anchors": ["include/IntegrationTools/pfunction/PSeriesFunction.hh: basis, basis_grad, basis_hess"]}
{"id": "C66", "title": "Fields on meshes of boxes in doubles", "statement": "Everything computed in IEEE-754 binary64 with rounding after every operation. For finite node coordinates that form boxes and are resolved on each axis (the search grid spacing is not lost in rounding), reading the mesh and constructing the field succeed, and every evaluation at a finite point of the mesh returns, with the same number whatever was evaluated before. If all boxes form one layer the value is finite and within 33 u times the sum of the absolute corner values (plus 9 tiny) of the trilinear interpolant of an element that contains the point up to 2^-1074 edges; away from the faces crossed by an axis the derivative along it is within 28 u times that sum over the edge length of the true derivative. Pure second derivatives are exactly zero.", "quantifier": "every such mesh, field, evaluation history and finite point", "why_tests_cant": "All binary64 inputs; the tests only use exactly representable grids and never points on faces of inexact boxes.", "anchors": ["include/IntegrationTools/pfield/Mesh.hh", "include/IntegrationTools/pfield/interpolation/Hexahedron.hh", "include/IntegrationTools/pfield/PField.hh"]}
{"id": "C67", "title": "Commands of the library writer's --compile", "statement": "With a location, directories, compiler and flags made of ordinary characters the library writer starts exactly three commands, in this order and with exactly the arguments meant: compile PLibrary.cc at the location with every directory on the include path, compile PExtern.cc, link the two objects just made; each finds the files the run wrote. (Violated for locations with blanks or semicolons, and a run that compiled nothing still reports success.)", "quantifier": "every run, option values, file system and behaviour of the commands", "why_tests_cant": "The compiler is an external program and locations are arbitrary texts; tests use one location without special characters and a compiler that works.", "anchors": ["src/lw/lw.cpp: 467-567 (main, --compile)"]}
{"id": "C68", "title": "Command line and exit status of the library writer", "statement": "Unless the options ask for a library (they can be read, ask for neither help nor version, and name variable containers), the program touches no file and starts no command, and returns 0 exactly if help or version was asked for. If they do, it does the run with the values given or the defaults (current directory, no directories, g++, -O3 -fPIC) and returns 0 exactly if the run is finished; leaving out --dir writes a library without classes. (Violated: 0 does not mean that the compiled library asked for exists.)", "quantifier": "every set of options, disk, scanning order, time and behaviour of the commands", "why_tests_cant": "All combinations of options over all disks; tests never start the program with missing or contradictory options.", "anchors": ["src/lw/lw.cpp: 375-440, 567 (main)"]}
