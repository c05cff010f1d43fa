# Formal model of IntegrationTools in Rocq/Coq 8.16.1

The properties are listed in `properties.jsonl`; `MANIFEST.json` maps each of them to theorem names.
This file says what is modelled, how each property is proved, and what has to be trusted.

## Approach

The C++ headers are modelled function by function as total Gallina functions (files
`rocq/theories/Model/*.v`, no proofs there). Every definition cites the lines it models.
Proofs are in `rocq/theories/Proofs/*.v`, specifications that do not use the model's helpers in
`rocq/theories/Spec/*.v`, and the property theorems, one file per area, in
`rocq/theories/Props/*.v` (each closed by `exact lemma.` with `Print Assumptions` beneath).

### Outcomes

A call has one of four outcomes: it returns, it throws (the exception and the state at the throw are
kept, because a caller may catch it and go on), it calls `exit`, or it is undefined behaviour (UB). UB is
a constructor of the outcome type, never assumed away: out-of-range subscripts, signed overflow,
division by zero, null and dangling pointers, double deletes, reads of uninitialised data and conversions of
out-of-range doubles to int all produce it.

### Numbers

* `int` is `Z` with an explicit range check on each arithmetic result (overflow is UB).
* `double` is a parameter of the model: a record `NumOps` of operations (add, sub, mul, div, comparisons, floor,
  conversion). The same model code is used with
  - `ROps`: exact reals (theorems about mathematics: interpolation, derivatives, coverage),
  - `RndOps rnd`: reals with every operation followed by a rounding `rnd` (theorems that survive rounding),
  - `FOps`: IEEE binary64 as formalised by Flocq (`BinarySingleNaN`, round to nearest even; used for counterexamples in
    real doubles and for the binary64 theorems),
  - `QOps`: rationals, for executable examples in exact arithmetic.
* `OutType` of functions/series is an arbitrary type with arbitrary operations wherever only the order of the
  operations matters; a ring or the reals when algebra is needed.

## Plan per property

| id | modelled | proof |
|----|----------|-------|
| C01 | PNDArray shape tables, linear_index, tensor_indices over Z with overflow | induction over the shape against Horner-form row-major spec |
| C02 | element read/write | injectivity of C01 + list update lemmas |
| C03 | all PNDArray mutators | invariant by induction over operation lists |
| C04 | reshape, resize | list firstn/repeat characterisation |
| C05 | calc_volume, generate_unroll | case analysis: outcome is UB iff; `refuted` witness for empty shape |
| C06 | Bin add/contents/indices | C01 injectivity, list update |
| C07 | add_range odometer with fuel | odometer enumerates the cuboid (induction on dimension), fuel bound |
| C08 | add_once | invariant over op lists |
| C09 | exceptions of Bin | state preserved at throw |
| C10 | Bin::indices and max_indices in R | floor/ceiling inequalities; refuted witnesses at the upper and the lower limit |
| C11 | Bin in RndOps | monotonicity of the rounded index function |
| C12 | max_size | fold max |
| C13-C14 | Quad/Hexahedron functions, QuadValues/HexahedronValues | field identities; is_derive (Coquelicot) |
| C15-C16 | is_in_range | case analysis on corner signs; refuted witness for 3D |
| C17 | eval_grad/eval_hess of Quad/Hexahedron | direct; refuted witness |
| C18-C24 | Mesh::basis_functions and co, PField as state machine with scratch buffers | combination of C06-C15; refuted witnesses in binary64 |
| C25 | construction of the grid in Mesh::read_vtk | real arithmetic on sorted distinct coordinates |
| C26-C27 | istream (getline, >>, eof/fail flags), Mesh::read_vtk, Body::read_vtk | induction over the text; non-termination for all fuel |
| C28-C29 | heap of objects + wrappers | ownership invariant over programs |
| C30 | PSimpleBase, PFuncBase, PFlexFunction objects | invariants over histories |
| C31 | PBasisSetBase caches | invariants over histories |
| C32-C36 | PSeriesFunction with caches | fold lemmas, derivative of finite tensor sums |
| C37 | virtual dispatch of PFuncBase | case analysis |
| C38-C40 | Piece, SimplePiece, PPieceWise* | induction over the piece list |
| C41 | string building | induction over lists |
| C42 | PFlexFunction | case analysis |
| C43-C45 | lw.cpp Collection, regex match, generated overload tables | invariant over lines; refuted witness |
| C46 | PExtern.cc handle functions | heap model |
| C47 | expressions of the sample libraries | ring / derivative identities |
| C48 | the reader of C26 from any body | C26's proof generalised to any starting mesh; bins of a doubled interpolator list |
| C49 | objects, addresses and lifetimes of Body, Mesh, Interpolator, PField | ownership invariant by induction over programs; file level from C26 |
| C50 | text forms that leave cells, types and data open; section runs of C26 for failing outcomes | the first offending cell, type or datum ends the loop; history invariant for short data |
| C51 | the weighted sum of C21 for two data; binary64 by Flocq's `Bplus_correct` | a partial sum is never -0, so adding 0 times a finite number leaves it unchanged; grid invariant for the coordinates |
| C52 | PExtern.cc names, PBasisSet_dd_new, PSeriesFunction_dsis_*; sample library | induction on the copied text and on the array of pointers; invariant that a library set has its class's functions; C32/C33 instantiated with the polynomials of C47 |
| C53 | src/python/pfunction/*.py: the table of ctypes calls, PSeries_dsis | decision over the finite tables of calls and prototypes; induction over lines and words; Flocq's spacing of doubles for the digits |
| C54 | PExtern.cc 94-170, 512-566, Body.hh scalar_field, push_back, find_scalar_field | simulation by a machine without addresses; invariants of the vectors' memory for every growth policy |
| C55 | C43/C44 for permuted files; PLibraryExtern.hh, PExtern.cc calls of checkout | the tables hold the same entries whatever the order; a checkout function is determined by what is offered |
| C56 | lw.cpp 570-1010 as text | an independent lexer and reader; lexing is compositional, each form written is read back; tokens of a type do not depend on where C45 cuts it |
| C57 | lw.cpp main, Collection, scandir, now on a disk | the two scans see the same headers up to order, because the names written are not scanned; C55/C56 for the rest |
| C58 | Mesh, Bin, Quad, Interpolator, PField in binary64 on rectangles | standard model of rounding (Flocq) for sums, products and quotients; box edges fl(a+fl(b-a)); the bin of a point holds the corners of an element at it; at most four terms are summed; error of each weight 4u to 9u |
| C59 | PSeriesFunction in binary64 | C32/C33 give the sum in the order computed; error of a product of any length and of a sum of any length by induction, one factor 1+u per operation |
| C60 | Monomial, Chebyshev, and series of either, in binary64 | error of any polynomial text by induction on its syntax tree, relative to the text with all signs positive; all 180 texts checked by computation against the two families; digits lost: exact integer evaluation of T_29 at one double |
| C61 | constructors, copies, assignments, destructors of hard-coded functions | refinement: pointer-level memory against a list of values; invariant: the live parts, arrays and tables are a permutation of the disjoint union of the objects' own |
| C62 | generated basis set classes with their vector of function objects | lockstep simulation of object methods and value methods, loops by induction; classes by evaluating a checker over the 180 texts |
| C63 | the digits scanned and printed as a function of the text (fold), the scaled integer divisions shown to be Flocq's roundings, then two roundings in different bases: a number close to a p-digit number rounds to it; with C59, C60 the values and derivatives of series that were saved and read | Props/DecimalProps.v, Props/SavedSeriesProps.v, Props/SavedDerivativeProps.v, Props/MonomialSeriesProps.v, Props/CoordTextProps.v |
| C64 | the reader with decimal numerals shown to read the rounded numbers (C63), rounding shown to keep a mesh of rectangles one, then the bound in doubles on the rounded mesh (C58) carried back to the numbers written, by how far a bilinear blend moves with its corners; the same for one layer of boxes (C66) and a trilinear blend; derivatives likewise, as quotients of moved blends and moved edges | Props/FileRoundProps.v, FileRound3Props.v, FileGradProps.v, FileGrad3Props.v |
| C65 | one loop invariant for the three product functions, with the order of differentiation of a variable counted from the list of variables named; derivative of a product as in C33 | Props/SeriesProductProps.v |
| C66 | the axis lemmas of C58 on three axes; the element chosen by the first claiming corner, its eight terms bounded one by one, corners missing from the bin shown negligible | Props/Round3Props.v |
| C67 | the command texts, read back by a model of the shell's word splitting; what each command finds on the disk from C57 | Props/LwCompileProps.v |
| C68 | main as a function of the options parsed; the run of C57, C67 behind it | Props/LwCommandProps.v |

## What is modelled

| model file | code |
|---|---|
| Outcome.v | outcomes, vector subscripts, int arithmetic (infrastructure) |
| Num.v, NumInst.v | the operations on double (infrastructure) and their instances |
| PNDArray.v | datastruc/PNDArray.hh |
| Bin.v | datastruc/Bin.hh |
| BinMax.v | datastruc/Bin.hh 191-221 (max_indices; nothing calls it) |
| PSimple.v, FuncObj.v | pfunction/PSimpleBase.hh, the caching members of pfunction/PFuncBase.hh subclasses |
| Interpolator.v, Quad.v, Hexahedron.v | pfield/interpolation/*.hh |
| Mesh.v | pfield/Mesh.hh (evaluation, grid construction, sections of the file) |
| PField.v | pfield/PField.hh |
| BasisSet.v | pfunction/PBasisSet.hh (PBasisSetBase and the wrapper's delegating members) |
| Series.v | pfunction/PSeriesFunction.hh |
| SeriesIO.v | pfunction/PSeriesFunction.hh print_basis*, print_coeff, read_coeff |
| Stream.v | std::istream: getline, operator>> for strings and integers, the eof and fail flags |
| Vtk.v | pfield/Mesh.hh read_vtk, pfield/Body.hh |
| Wrapper.v | the owning wrappers PSimpleFunction, PFunction, PBasisSet (copy, assignment, destruction) on a heap |
| CApi.v | src/c/PExtern.cc: handles made, used and deleted through the C interface |
| PFlex.v | pfunction/PFlexFunction.hh |
| Piecewise.v | piecewise/*.hh |
| Lw.v | src/lw/lw.cpp: the scanner, its regular expression, which checkout functions are declared and defined and what they hand out (the generated code as a structure, not as text) |
| LwText.v | src/lw/lw.cpp: the text of the generated header and source (570-1010); which functions src/c/PLibraryExtern.hh declares and PExtern.cc calls |
| LwMain.v | src/lw/lw.cpp: a run for given options on a disk: scandir, the log, now, what is opened and written when (96-140, 163-188, 353-371, 375-567) |
| LwCompile.v | `src/lw/lw.cpp` 467-567: the three commands of --compile, started through popen, for any behaviour of the shell; and how a POSIX shell splits a text of ordinary characters, blanks, semicolons and newlines into commands |
| CoordText.v | `include/IntegrationTools/pfield/Coordinate.hh` 39-48: operator<< of a coordinate of doubles of any dimension |
| LwCommand.v | `src/lw/lw.cpp` 375-440: main for the options that boost's parser yields: help, version, required and default values, exit status |
| CExpr.v | the C++ and symbolic expressions that occur in the sample libraries, their parsing and value |
| Samples.v | tests/testlib/*.hh: Monomial, Chebyshev, Quadratic, MyFunc, MyPieceWiseFunc (each class as the three texts of its file) |
| Parts.v, PartsClasses.v | ownership in pfield/interpolation/Quad.hh (class Quad), Hexahedron.hh (class Hexahedron), tests/testlib/Quadratic.hh, MyFunc.hh, MyPieceWiseFunc.hh (pieces): construct, copy, clone, operator=, destructor, on a heap of parts and pointer arrays |
| SampleSet.v | tests/testlib/Monomial.hh and Chebyshev.hh 2620-2914 (class Monomial, Chebyshev): construct, copy, operator=, resize, eval*, basis_function, with the vector of PFunction objects |
| Decimal.v | operator<<(double) and operator>>(double) of libstdc++/glibc as used by pfunction/PSeriesFunction.hh 416-452 and 468, pfield/Mesh.hh 159-364, pfield/Body.hh 41-123 (C locale, default format, round to nearest; no thousands separators, no NaN sign) |
| CInterface.v | src/c/PExtern.cc: names and descriptions, PBasisSet_dd_new, PSeriesFunction_dsis_*; lw.cpp: the generated checkout functions for basis sets |
| Python.v | src/python/pfunction/*.py: every ctypes call with its arguments against the prototypes of src/c/PExtern.cc; the text methods; PSeries_dsis construction, set, print_coeff, read_coeff |
| FieldPtr.v | src/c/PExtern.cc ScalarField2D/3D, Body2D/3D_new and _delete, PFunction_dsd_delete and calls; the memory of Body::scalar_field (Body.hh 24, 115, 125-133) |
| Life.v | who owns the objects of a Body, and when they die: pfield/Body.hh, pfield/Mesh.hh, pfield/PField.hh, src/c/PExtern.cc |
| Iface.v | C++ virtual dispatch by signature, pfunction/PFuncBase.hh, pfunction/PFunction.hh |

## Not modelled

The text of doubles is modelled in Decimal.v after the C++ and C standard libraries (C63); C29 and C36 are stated for any
conversion that reads a number it is given and stops behind it, which C63_reads_nearest proves of this one. C36 in addition assumes that reading undoes
printing, which is false for the default stream precision of six digits (C53_digits_lost_refuted) and replaced by C63_series for doubles. Not modelled: failures of output streams, text printed to standard output, memory exhaustion (except an impossible vector size), concurrency (no threads in the
code), the latex texts of the sample libraries, `std::pow` (a parameter, assumed to be the real power on positive bases), symbolic functions that need GiNaC (mentioned in the README, not in the repository), boost's parsing of the words of the library writer's command line (C68 starts from the options it yields) and what the compiler it starts does, boost::regex giving up on an expression that is too costly, CMake/build files, of the Python package anything but its calls into the C library and PSeries_dsis (its path set-up, tests, and the argument lists callers build with ctypes).

## Findings

Each is a theorem (name with suffix `_refuted`, or a theorem that states the exact extent of the defect).

* C05: an array with an empty shape is undefined behaviour (`_unroll[0]`, PNDArray.hh); it is reached by a series over zero
  basis sets. A `length_error` thrown while resizing leaves the array with the new shape but the old values.
* C10: a coordinate equal to a grid's upper limit passes the range check and gets bin number N: out of range in the
  first dimension, an alias of another bin in later dimensions.
* C14: in 3D the off-diagonal Hessian entries of `Hexahedron` lack the factor of the third axis, so the Hessian is
  not the second derivative.
* C16: 3D `is_in_range` ignores z.
* C17: 3D `eval_grad`/`eval_hess` refresh only the entries with indices 0 and 1.
* C21: outside the mesh but inside a bin, an evaluation returns the sum left in the scratch vectors by an earlier call.
* C22: 3D fields are wrong where a bin meets two layers of elements (consequence of C16).
* C24: evaluation is undefined exactly on the search grid's upper limit.
* C27: reading a file that cannot be opened never ends; neither does a file with a malformed number among its data (the stream
  fails, end-of-file is never reported, `while(!infile.eof())` goes on). A file cut off inside its data is accepted silently,
  the missing values being 0.
* C34: a single derivative of a series (`grad`, `hess`) uses the getter with the coordinate converted to a term number:
  stale or out-of-range factors even right after an evaluation at the same point.
* C37: `PSeriesFunction` declares its derivative members with `int`, the base with `size_type`; they hide the virtuals instead of
  overriding them, so through `PFunction` every derivative of a series throws `runtime_error`.
* C28/C29: `operator=` of the wrappers (PFunction.hh, PSimpleFunction, PBasisSet) deletes its own object before cloning the source: self-assignment
  reads freed memory, an empty source is a null dereference, and a `clone` that throws leaves a dangling pointer that the destructor deletes again.
* C40: a derivative evaluated at a point of another piece sets `_curr_piece`, and the value getter then reads that piece: an old value or an
  uninitialised one.
* C41: `SimplePiece::latex` prints the conditions between the first and the last with `sym`; the latex form of an empty piece list is unbalanced.
* C42: `PFlexFunction::clear` assigns empty wrappers and is always undefined; copying a default-constructed `PFlexFunction` is undefined;
  `PFlexFunction::operator=` has no return statement and is undefined even when everything before it succeeds.
* C44: a variable container given on the command line that is also the input type of a declared class makes the library writer declare
  and define the same checkout function twice; the generated library does not compile.
* C45: a blank behind the input or output type of a declaration becomes part of the type's name, so `double` and `double ` are two types;
  an output type containing a comma (`std::map<int,int>`) is cut at its last comma.
* C46: a copied handle is freed twice (delete nulls only the variable it is given); `new` on a handle in use leaks the old object; the `int` returned
  for an unlimited `max_size` is -1.
* C47: the sample piecewise function jumps on the y axis, so the gradient it reports there is no derivative; its Hessian on the circle of
  radius 1/2 is one-sided. A NaN coordinate lies in no piece (`domain_error`).
* `PBasisSet::set` and `PBasisSet::description` do not compile when instantiated (read off the source; no theorem).
* C48: reading a second file into the same Body appends nodes, interpolators and fields but replaces box and bins, and the second file's cells
  refer to the first file's nodes. The same file read twice doubles every new field; the fields found by name are the old ones, which write past their
  scratch vectors; a file whose box does not contain the old mesh throws domain_error.
* **C49: destroying a body that holds a mesh is undefined behaviour.** `Interpolator` (Interpolator.hh 15-87) has virtual functions but no virtual
  destructor; `~Mesh` (Mesh.hh 145-149) deletes `QuadValues` and `HexahedronValues` objects, which own a `std::vector`, through `Interpolator*`. It
  happens whenever a body is destroyed into which a file with at least one cell was read. The rest of C49 and
  C46's `Body2D_delete`/`Body3D_delete` are stated as if the destructor were virtual.
* C49: `Mesh` has a destructor but no copy constructor or assignment: a copied `Body` deletes the same interpolators again. The copied fields still
  point to the original's mesh. So does a field cloned into a `PFunction`: it must not outlive its body.
* Mesh.hh 65, 97 and 277 push a copy of an uninitialised pointer onto a vector and overwrite it at once. By the letter this reads an indeterminate
  value; the model takes it as harmless.

* **C50: the reader validates nothing about a mesh except the cell types.** A cell with too few corners (a triangle in a 2D file), a cell
  that names a missing node, and a file without points are out-of-bounds reads (Mesh.hh 302-322 with the construct_interpolating_functions, and 240-249), whatever follows. Types
  other than 9 and 12 end the process with `exit()` - after the mesh was built; type 12 in a 2D file, or fewer types than cells, pass.
* **C50: a field with fewer data than nodes is accepted and read out of bounds** at every point of every cell with a corner without
  datum, and also at points of other cells that share a bin with such a cell, since the sum runs over all interpolators in the bin.
* **C50: incomplete header lines of the data part are filled in with what was read before.** `ss >> str >> name` leaves `name` as it was when the line ends
  (Body.hh 77-79; the variable is declared outside of the loop, 50-57): a SCALARS line without a name gives its field the name of the field before (the empty name for
  the first), under which it is never found. A POINT_DATA line without a count keeps the old count, and a field before any count reads an indeterminate one.
* **C50: negative numbers stand for huge ones.** `operator>>` into an unsigned long takes a sign and negates modulo 2^64, so a negative node number is an
  out-of-bounds read (or, near -2^64, a valid node), a negative number of points or data ends in `std::length_error`, a negative type in `exit()`.
* **C57: a directory that has the name of an output goes unnoticed.** The file is not opened, nothing is written, and the program ends normally.
* **C51: one infinite or NaN datum spoils its whole bin.** The sum over a bin multiplies the data of all other elements in it by 0 (Mesh.hh
  basis_functions; PField.hh operator()), and 0 * inf is NaN: a field is NaN at points of elements none of whose corners has a
  non-finite datum. With finite data a result depends, bit for bit, on the corners of one element only.
* **C51: NaN coordinates are undefined behaviour.** Bin::indices (185) rejects a coordinate by `<` and `>`, both false for NaN, and then
  converts floor(NaN) to int.
* **C46: sizes through the C interface.** A negative size given to PBasisSet_*_resize becomes a huge unsigned one: `exit()` for a limited basis set, length_error for an unlimited one.
* **C52: names overrun the caller's buffer.** PExtern.cc 34-37, 67-70, 100-118, 187-195 strcpy a name or description into a buffer whose size
  they are not told.
* **C52: PSeriesFunction_dsis_set forgets.** It checks the sets out of the library again by name and size (PExtern.cc 295-306) instead of
  copying them as _setnew does: stored results are lost, and a set that did not come from the library makes it throw. The "not found" message
  is unreachable, because checkout throws for unknown names. Both functions are undefined for order <= 0 (an empty coefficient array, C05).
* **C53: 12 of the 88 ctypes calls of the Python package do not fit.** `name`, `var_name`, `var_description` and `description` (psimple_dd.py,
  psimple_dsd.py, pfunc_dsd.py, pbasisset_dd.py) pass the address of a null `c_char_p` as the buffer, so the name is written over that pointer
  (`C53_text`). PFunc_dsd.get_grad and get_hess call PFunction_dsd_get with extra arguments, so PFunction_dsd_get_grad/_get_hess are never
  reached (`C53_reached`). PSeries_dsis.linear_index calls PSeriesFunction_dsis_linear_coeff, which does not exist; calc_basis_grad and
  calc_basis_hess pass indices the C functions do not take.
* **C53: PSeries_dsis() is undefined behaviour.** `basis is []` (pseries_dsis.py 11) is never true, so the default constructor calls setnew with no
  sets, which is out of bounds (`C53_series_default_refuted`).
* **C53, C36: printed coefficients lose digits.** No printing with at most 16 significant digits can be undone (`C53_digits_lost_refuted`); print_coeff
  uses the stream's precision (6 by default) in C++ and str (12 digits) in Python 2. 17 digits would do (`C53_digits_enough`).
* **C36: broken tables go unnoticed.** read_coeff does not look at the stream: a table that ends early or has an index that is no int leaves the remaining
  coefficients as they were, and nothing but the state of the stream tells (`C36_read_breaks_off`).
* **C54: field pointers dangle.** The pointer ScalarField2D/3D hands out is indistinguishable from one PFunction_dsd_new makes, but
  PFunction_dsd_delete on it is undefined behaviour (`C54_delete_field`), and so is every use after its body is deleted (`C54_dead`; only a
  comment in PExtern.cc warns of the former). A reference from find_scalar_field is invalidated by reading a further file into the body
  exactly when the vector has to grow (`C54_second_read`, `C54_references_stay_valid_refuted`): it works for some field counts and not for others.
* **C55: a library need not fit the C interface.** PExtern.cc is generated alongside every library (lw.cpp 1012-1585) but calls five checkout functions
  that are only generated if the library has a simple function for `double*` and for `double`, a function for `double*` and a basis set
  for `double` (`C55_extern`); otherwise it does not compile (`C55_extern_refuted`).
* C55: a class name that is declared twice is noticed only if base class and types agree too (`C55_same_name_refuted`); else both files are
  included in one source.
* C56: two classes over `<double, double>` and `<double , double>` give two definitions of the same function (`C56_defined_twice_refuted`),
  because types are compared as written, trailing blanks included. A class template with a comma in its output type is not recognised as one over the
  container (`C56_container_refuted`). For other classes the wrong cut of C45 is harmless: the two halves are written back side by side (`C56_class`).
* **C57: a failed run destroys the library.** lw opens PLibrary.hh before it scans (lw.cpp 445): if a class is declared twice or a directory is missing,
  an earlier library is left with an empty header and its old source (`C57_twice`, `C57_missing`).
* C57: a location that does not exist is not noticed: the program ends with status 0 and writes nothing (`C57_nowhere`).
* C57: headers are included by name only; of two headers of the same name in different directories one is lost (`C57_includes_refuted`).
* C57: the comment above now() promises YEAR-MM-DD HH:MM:SS, but month, day and hour are not padded (`C57_case_time`).
* **Reading a mesh can be undefined when coordinates are too close (C58).** With two x coordinates that are neighbouring
  doubles the computed bins no longer lie inside the search grid, and `Mesh::read_vtk` reads outside its rows
  (C58_mesh_reads_unresolved_refuted). With a single x coordinate the increment is 0 and 0/0 is converted to an int
  (C58_mesh_reads_flat_refuted). Real-number theorems about meshes ask for rectangles of positive size; C58_mesh_reads also asks for `resolved`.
* **Gradients on element edges are wrong in doubles (C58).** The box of a corner is stored as its lower corner and edge
  vector, so its upper edge is fl(a + fl(b - a)), which can lie just below b. On [-1, 0.4] x [0, 1] the upper edge is
  0.3999999999999999, in a lower bin than 0.4. At x = 0.4 only the two corners on that edge are found. The value is right,
  because the other two weights are zero there, but the x-derivative lacks two of its four terms: for constant data 1 it is
  0.714 instead of 0. Values are proved accurate everywhere, derivatives away from edges.
* C60: the generated Chebyshev functions sum monomials with coefficients up to 10^10, so the higher ones lose digits near the ends of
  the interval: T_29(0.9984230418734975) is computed as -0.058031 instead of -0.058018. The proven bound for all terms and points is 0.0003.
* C61: Quad and Hexahedron declare a destructor and a copy constructor but no operator=; the implicit one copies the pointers, so `a = b`
  leaks a's parts and frees b's twice. The library itself never assigns them (interpolators hold pointers).
* C61: the copy constructors of Quad, Hexahedron and the pieces of MyPieceWiseFunc build new parts instead of cloning those of the
  original, so a clone of an evaluated object has no stored results, unlike one of Quadratic or MyFunc.
* C61: operator= of the pieces of MyPieceWiseFunc copies part pointers (not parts) and has no return statement.

* print_coeff uses the stream's default precision of six digits: coefficients lose up to 5e-6 of their value when saved (C63_reread), and values of the series read up to 5e-6 of the sum of the sizes of its terms (C63_saved_series, C63_saved_chebyshev; with 17 digits nothing, C63_saved_seventeen); saving again writes
  the same table, except for tiny numbers: 202403 2^-1074 prints as 1e-318, which is read as 202402 2^-1074 and prints as 9.99999e-319 (C63_tiny_refuted).
* print_coeff writes infinite and NaN coefficients as words that read_coeff cannot read: it stores 0, leaves all later coefficients as they were and
  returns normally; only the stream's failure flag tells (C63_not_finite, C63_infinity_refuted).
* C10: `Bin::max_indices` (never called) accepts a coordinate on the lower limit of the grid and gives index -1 for it (`C10_max_indices_refuted`).
* C49: a clone of a field of a copied Body refers to the original Body: it dangles once the original is destroyed, though the copy is alive
  (`C49_cloned_copy_refuted`).
* C64: a file with coordinates such as 1 and 1.00000000000000000001, which differ as numbers but not as doubles, is a mesh of rectangles as text; reading it
  divides by a zero increment and converts the result to int, which is undefined (`C64_close_coordinates_refuted`).
* C65: `PSeriesFunction::basis_grad(term, var, di)` with a di that is no variable returns the undifferentiated product (`C65_no_such_variable_refuted`).
* C66: in doubles, too, a field on two stacked cubes answers with the extrapolation of the wrong cube (`C66_value_layers_refuted`: 0 instead of 2 for data between 0 and 8), because `HexahedronValues::is_in_range` does not look at z.
* C67: the commands of `--compile` are pasted together without quoting: a location with a blank makes the compiler work on other files (`C67_blank_refuted`), and a location such as `x; rm -r lib; ` runs the command in it although no such directory exists, since the failure to write the library there is not noticed (`C67_injection`). Exit statuses are never looked at, so a run whose commands all failed ends like one that made the library (`C67_status_ignored`, `C67_library_made_refuted`); the result of popen is not checked (`C67_no_shell`), and the streams are never closed.
* C68: the exit status is 0 for every finished run, whatever became of the commands (`C68_status_refuted`); leaving out `--dir` is no error but writes a library without classes (`C68_no_directories`).
* C31: max_size of a basis set without limit is -1 through PBasisSet, and resizing it to a negative number throws length_error, where a generated set with a limit
  ends the program (`C31_wrapper_sizes`, `C31_wrapper_resize`).

## Trusted base

* Coq's kernel, including `vm_compute`. `coqchk -silent -o` on all modules of Props ends without error; it lists as axioms functional_extensionality_dep,
  sig_not_dec, sig_forall_dec and classic (all of the standard library), and no unsafe fixpoints, assumed positivity or type-in-type.
* The hand translation of the C++ into `Model/*.v`, and the reading of the C++ standard it embodies (what is undefined, how
  `int` and vectors behave). The code is not compiled or run.
* IEEE arithmetic is that of Flocq's `BinarySingleNaN` (one NaN); theorems about `RndOps rnd` hold for the stated
  conditions on `rnd`.
* For each theorem, what `Print Assumptions` prints: the axioms of the standard library's real numbers and functional
  extensionality where listed in the last section. No axiom is added by this development.

## Assumptions per theorem

Collected from `Print Assumptions` (standard library only).

* No axioms (closed under the global context):
  C01_index_bijection, C01_proper_shapes_are_built, C02_write_is_local, C03_bookkeeping, C03_no_undefined_behaviour, C04_construct_with_values, C04_reshape, C04_resize, C05_empty_shape_refuted, C05_length_error_leaves_inconsistent_refuted, C05_shape_preconditions, C11_contents_only_grow, C12_cleared, C12_max_size_of_nothing, C17_hexahedron_eval_grad_refreshes_two, C17_hexahedron_eval_hess_refreshes_four, C17_hexahedron_eval_refreshes_value, C17_quad_eval_grad_refreshes_all, C17_quad_eval_hess_refreshes_all, C17_quad_eval_refreshes_value, C21_2d_any_arithmetic, C21_3d_any_arithmetic, C23_2d_eval, C23_2d_eval_grad, C23_2d_eval_hess, C23_2d_stored_is_latest, C23_2d_throw_changes_nothing, C23_3d_eval, C23_3d_eval_grad, C23_3d_eval_hess, C23_3d_stored_is_latest, C23_3d_throw_changes_nothing, C23_initially, C24_2d_only_the_grid_can_fail, C24_3d_only_the_grid_can_fail, C26_find_field, C26_find_missing, C26_reads_file_2d, C26_reads_file_3d, C27_malformed_number_refuted, C27_only_if_stuck_2d, C27_only_if_stuck_3d, C27_stuck_data, C27_stuck_mesh, C27_terminates_refuted, C28_call_empty, C28_clone_throws, C28_dead_wrapper, C28_nothing_leaks, C28_set_null, C28_set_twice, C28_wrappers_are_values, C29_assignment_safe_refuted, C29_good_assignments, C29_only_bad_assignments, C30_flex_eval, C30_flex_eval_grad, C30_flex_eval_hess, C30_flex_history, C30_flex_return_is_stored, C30_history, C30_return_is_stored, C30_simple_base, C31_all_refreshed, C31_base_class, C31_getter_is_last_result, C31_single_evaluation, C31_wrapper_reads_the_same, C31_wrapper_resize, C31_wrapper_sizes, C32_assign_coefficient, C32_coefficients_exist, C32_series_exist, C32_value_is_tensor_sum, C33_gradient_sums, C33_hessian_sums, C34_double_converts, C34_grad_uses_stored_values, C34_hess_uses_stored_values, C34_other_coordinates_out_of_range, C36_print_then_read, C36_printed_products, C36_printed_table, C36_read_breaks_off, C36_read_ignores_indices, C37_derivatives_throw, C37_values_reach_the_series, C38_cases_exhaustive, C38_condition_throws, C38_eval_grad, C38_eval_hess, C38_first_piece, C38_in_piece, C38_nested, C38_no_piece, C38_piece_number, C38_sample_functions, C39_in_piece, C39_simple_forms, C40_conditions_fail, C40_conditions_hold, C40_conditions_kept, C40_conditions_throw, C40_fresh, C40_getter, C40_getter_refuted, C40_miss, C40_one_piece, C41_latex_empty_refuted, C41_latex_refuted, C41_piece_csrc, C41_piece_latex, C41_piece_latex_short, C41_piece_sym, C41_undefined_part, C41_whole_csrc, C41_whole_latex, C41_whole_sym, C42_assign_undefined, C42_clear_undefined, C42_components, C42_copy, C42_copy_default_refuted, C42_hands_out, C42_make, C42_set, C42_values, C43_headers, C43_piecewise_too, C43_tables, C44_checkout, C44_checkout_exact, C44_declared_as_defined, C44_declared_twice_refuted, C45_comma_refuted, C45_found, C45_layout, C45_layout_iff, C45_not_found, C45_trailing_blank_refuted, C46_all_deleted, C46_call_null, C46_copied_handle_refuted, C46_delete_twice, C46_handles_are_values, C46_max_size_limit, C46_max_size_unlimited, C46_resize, C46_resize_negative, C46_size, C47_bowl_nan, C48_second_file_refuted, C48_second_read_2d, C48_second_read_3d, C48_second_read_box, C48_second_read_contents, C48_second_read_refuted, C49_assign_refuted, C49_careful_is_safe, C49_careless_is_undefined, C49_cloned_copy_refuted, C49_cloned_field_refuted, C49_copied_field_refuted, C49_copy_refuted, C49_destruction_refuted, C49_file_2d_refuted, C49_file_3d_refuted, C49_nothing_leaks, C49_until_destroyed, C50_bad_cell_2d, C50_bad_cell_3d, C50_forms, C50_incomplete_headers_2d, C50_incomplete_headers_3d, C50_no_points_2d, C50_no_points_3d, C50_short_data_2d_any_arithmetic, C50_short_data_3d_any_arithmetic, C50_too_many_points, C50_uncounted_2d, C50_uncounted_3d, C50_unsupported_type_2d, C50_unsupported_type_3d, C52_bad_pointers, C52_checkout, C52_checkout_unknown, C52_coefficients, C52_name_cut, C52_name_fits, C52_name_overruns, C52_no_sets, C52_set, C52_set_keeps_results_refuted, C52_set_unknown, C52_setnew, C53_calls, C53_calls_fit_refuted, C53_print, C53_print_then_read, C53_reached, C53_read, C53_read_stops, C53_series, C53_series_default_refuted, C53_set, C53_text, C54_alive, C54_c_interface, C54_dead, C54_delete_field, C54_find, C54_find_unknown, C54_references_stay_valid_refuted, C54_second_read, C55_declared, C55_exit_order, C55_extern, C55_extern_refuted, C55_included, C55_order, C55_same_name_refuted, C56_calls, C56_class, C56_container_refuted, C56_defined_twice_refuted, C56_text, C57_ends, C57_in_the_way, C57_includes, C57_includes_refuted, C57_missing, C57_no_feedback, C57_nowhere, C57_rerun, C57_run, C57_time, C57_twice, C61_assigned_parts_freed_twice, C61_assigned_parts_gone, C61_assignment_refuted, C61_classes, C61_copies_forget, C61_copies_keep_refuted, C61_hexahedron_copies_are_new, C61_hexahedron_eval, C61_myfunc_copies_keep, C61_myfunc_eval, C61_nothing_leaks, C61_objects_are_values, C61_piece_assignment, C61_piece_assignment_refuted, C61_piece_copies_are_new, C61_piece_eval, C61_quad_copies_are_new, C61_quad_eval, C61_quadratic_copies_keep, C61_quadratic_eval, C62_all_terms, C62_classes, C62_one_term, C62_sets_are_families, C63_coordinate_text, C65_all_sets, C65_one_factor, C65_one_set, C65_products, C65_stored_products, C67_blank_refuted, C67_extern_arguments, C67_injection, C67_library_arguments, C67_library_made_refuted, C67_link_arguments, C67_no_shell, C67_paths, C67_run, C67_status_ignored, C68_library, C68_no_directories, C68_nothing_done, C68_runs, C68_status_refuted.

* `ClassicalDedekindReals.sig_forall_dec`, `FunctionalExtensionality.functional_extensionality_dep`:
  C06_add_reaches_its_cell, C06_contents_is_pure, C06_new_grid_is_empty, C07_add_range_covers_the_box, C08_add_once_adds_if_absent, C08_add_once_never_duplicates, C09_outside_is_rejected, C10_index_valid_iff_below_upper_limit, C10_max_indices, C10_max_indices_outside, C10_upper_limit_first_dimension_undefined, C10_upper_limit_second_dimension_aliases, C11_box_is_found_any_rounding, C12_max_size_bounds_every_bin, C13_hexahedron_between_0_and_1, C13_hexahedron_nodal_values, C13_hexahedron_partition_of_unity, C13_quad_between_0_and_1, C13_quad_nodal_values, C13_quad_partition_of_unity, C14_hexahedron_hessian_symmetric, C14_quad_hessian_symmetric, C15_quad_min_max, C15_quad_range_is_the_rectangle, C16_hexahedron_min_max, C16_hexahedron_range_is_the_column, C16_hexahedron_range_refuted, C18_mesh_and_field_exist, C20_shared_corner, C20_shared_edge, C21_3d_history_independent, C22_wrong_layer_refuted, C24_2d_safe, C24_3d_safe, C25_2d_grid_covers_mesh, C25_3d_grid_covers_mesh, C32_value_real, C35_fresh_series_vanishes, C35_gradient_linear, C35_hessian_linear, C35_value_linear, C47_polynomial_texts, C47_sizes, C48_old_field_out_of_bounds, C50_short_data_2d, C50_short_data_3d, C51_local_2d_reals, C51_local_3d_reals, C53_digits_unique, C65_derivatives.

* `ClassicalDedekindReals.sig_forall_dec`, `ClassicalDedekindReals.sig_not_dec`, `FunctionalExtensionality.functional_extensionality_dep`:
  C33_gradient_is_partial_derivative, C33_hessian_is_second_derivative, C34_grad_after_evaluation, C34_hess_after_evaluation, C47_chebyshev_cos, C60_growth.

* `ClassicalDedekindReals.sig_forall_dec`, `ClassicalDedekindReals.sig_not_dec`, `Classical_Prop.classic`, `FunctionalExtensionality.functional_extensionality_dep`:
  C10_accepted_coordinate_is_safe_refuted, C10_max_indices_refuted, C11_box_is_found_binary64, C14_hexahedron_gradient, C14_hexahedron_hessian_refuted, C14_hexahedron_hessian_right_iff, C14_quad_gradient, C14_quad_hessian, C17_hexahedron_eval_grad_refuted, C17_hexahedron_eval_hess_refuted, C18_bilinear_interpolant, C19_affine_data, C19_maximum_principle, C19_nodal_values, C20_any_element, C20_continuous, C21_2d_history_independent, C21_outside_refuted, C22_affine_data, C22_chosen_element, C22_one_layer, C24_on_the_limit_refuted, C26_file_to_values, C34_depends_only_on_point_refuted, C34_safe_after_evaluation_refuted, C47_bowl_gradient, C47_bowl_gradient_everywhere_refuted, C47_bowl_hessian, C47_bowl_hessian_everywhere_refuted, C47_bowl_value, C47_chebyshev, C47_cone_texts, C47_monomials, C47_myfunc, C47_quadratic, C48_new_field_doubled, C48_same_file_twice, C51_infinite_neighbour_refuted, C51_local_2d_binary64, C51_local_3d_binary64, C51_nan_2d, C51_nan_3d, C51_not_finite_2d, C51_not_finite_3d, C52_sample_series, C53_digits_enough, C53_digits_lost_refuted, C58_gradient_edge_refuted, C58_gradient_error, C58_mesh_reads, C58_mesh_reads_flat_refuted, C58_mesh_reads_unresolved_refuted, C58_mixed_derivative_error, C58_pure_second_derivative, C58_value_error, C59_error_is_linear, C59_gradient_error, C59_hessian_error, C59_value_error, C60_chebyshev_absolute, C60_chebyshev_digits_refuted, C60_chebyshev_error, C60_monomial_error, C60_monomial_series_gradient, C60_monomial_series_hessian, C60_monomial_series_value, C60_series_gradient, C60_series_hessian, C60_series_value, C62_chebyshev, C62_monomials, C63_coordinate_reread, C63_coordinate_seventeen, C63_infinity_refuted, C63_not_finite, C63_prints_digits, C63_prints_only_digits, C63_reads_nearest, C63_reads_too_large, C63_reread, C63_saved_chebyshev, C63_saved_chebyshev_gradient, C63_saved_chebyshev_hessian, C63_saved_gradient, C63_saved_hessian, C63_saved_monomial, C63_saved_monomial_gradient, C63_saved_monomial_hessian, C63_saved_series, C63_saved_seventeen, C63_series, C63_series_seventeen, C63_seventeen_digits, C63_six_digits_kept, C63_tiny_refuted, C64_box_file_gradient, C64_box_file_value, C64_close_coordinates_refuted, C64_file_derivatives, C64_file_value, C64_rounded_boxes, C64_rounded_mesh, C65_no_such_variable_refuted, C66_evaluates, C66_gradient_error, C66_mesh_reads, C66_pure_second_derivative, C66_value_error, C66_value_layers_refuted.
