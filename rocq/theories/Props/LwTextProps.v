(** C55-C56: the generated library, whatever the order of its files, and as text. *)
From Coq Require Import ZArith List Bool Ascii String Permutation.
From Verif Require Import Model.Outcome Model.Stream Model.Lw Model.LwText Spec.Lw Spec.LwText Proofs.LwP Proofs.LwGenP Proofs.LwTextP Proofs.LwLibP.
Import ListNotations.

(** C55. Whether the classes found make the program exit does not depend on the order in which they are found. *)
Theorem C55_exit_order : forall fs fs' fuel, (forall f t, In (f, Some t) (fs ++ fs') -> List.length t + 1 < fuel)%nat -> (0 < fuel)%nat ->
  Permutation (all_entries fs) (all_entries fs') ->
  (collect fuel fs coll_empty = RExit /\ collect fuel fs' coll_empty = RExit) \/
  (exists c c', collect fuel fs coll_empty = RRet c tt /\ collect fuel fs' coll_empty = RRet c' tt).
Proof. exact collect_order. Qed.
Print Assumptions C55_exit_order.

(** C55. Nor do the functions generated, nor what each hands out, depend on it, or on the order of the variable containers. *)
Theorem C55_order : forall fs fs' fuel c c' var var' defs defs', (forall f t, In (f, Some t) (fs ++ fs') -> List.length t + 1 < fuel)%nat -> (0 < fuel)%nat ->
  Permutation (all_entries fs) (all_entries fs') -> Permutation var var' ->
  collect fuel fs coll_empty = RRet c tt -> collect fuel fs' coll_empty = RRet c' tt -> write_source var c = Ok defs -> write_source var' c' = Ok defs' ->
  NoDup var -> (forall v t ot n, In v var -> v <> txt "VarContainer" -> ~ In (t, v, ot, n) (all_entries fs)) ->
  Permutation (map ck_sig defs) (map ck_sig defs') /\
  forall f f' n, In f defs -> In f' defs' -> ck_sig f = ck_sig f' -> run_checkout f n = run_checkout f' n.
Proof. exact library_order. Qed.
Print Assumptions C55_order.

Example C55_case_order : Permutation (all_entries sample_lib) (all_entries (rev sample_lib)) /\
  (forall f t, In (f, Some t) (sample_lib ++ rev sample_lib) -> List.length t + 1 < 300)%nat /\
  NoDup sample_var /\ (forall v t ot n, In v sample_var -> v <> txt "VarContainer" -> ~ In (t, v, ot, n) (all_entries sample_lib)) /\
  exists c c', collect 300 sample_lib coll_empty = RRet c tt /\ collect 300 (rev sample_lib) coll_empty = RRet c' tt /\
    co_in c = [txt "double"; txt "VarContainer"] /\ co_in c' = [txt "VarContainer"; txt "double"].
Proof. exact sample_order. Qed.

(** C55. Which functions are declared: those for which a class is filed under their types, or under the template container if theirs is one of the containers. *)
Theorem C55_declared : forall fs fuel c var sigs s, (forall f t, In (f, Some t) fs -> List.length t + 1 < fuel)%nat -> (0 < fuel)%nat ->
  collect fuel fs coll_empty = RRet c tt -> write_header var c = Ok sigs -> In s sigs <-> provided var (all_entries fs) s.
Proof. exact declared_iff. Qed.
Print Assumptions C55_declared.

(** C55. A class handed out is declared in a file that the generated source includes. *)
Theorem C55_included : forall fs fuel c var defs f n x, (forall f t, In (f, Some t) fs -> List.length t + 1 < fuel)%nat -> (0 < fuel)%nat ->
  collect fuel fs coll_empty = RRet c tt -> write_source var c = Ok defs -> In f defs -> run_checkout f n = Ok x ->
  exists file content t it ot, In (file, content) fs /\ In (t, it, ot, in_class x) (file_entries (file, content)) /\ In file (co_file c).
Proof. exact library_included. Qed.
Print Assumptions C55_included.

Example C55_case_included : exists c defs f, collect 100 two_classes coll_empty = RRet c tt /\ write_source [txt "Vec"] c = Ok defs /\
  In f defs /\ run_checkout f (txt "B") = Ok (mkInst (txt "B") (Some (txt "Vec"))) /\ co_file c = [txt "A.hh"; txt "B.hh"].
Proof. exact two_included. Qed.

(** C55. What the C interface calls is among what the checked-in header declares, and is declared by a generated header exactly if a simple function is
    filed for [double*] and for [double], a function for [double*], and a basis set for [double]. *)
Theorem C55_extern : incl extern_called extern_declared /\
  forall fs fuel c var sigs, (forall f t, In (f, Some t) fs -> List.length t + 1 < fuel)%nat -> (0 < fuel)%nat ->
  collect fuel fs coll_empty = RRet c tt -> write_header var c = Ok sigs ->
  incl extern_called sigs <->
  (exists n, In (TSimple, txt "double*", txt "double", n) (all_entries fs) \/ In (TSimple, txt "VarContainer", txt "double", n) (all_entries fs) /\ In (txt "double*") var) /\
  (exists n, In (TSimple, txt "double", txt "double", n) (all_entries fs) \/ In (TSimple, txt "VarContainer", txt "double", n) (all_entries fs) /\ In (txt "double") var) /\
  (exists n, In (TFunc, txt "double*", txt "double", n) (all_entries fs) \/ In (TFunc, txt "VarContainer", txt "double", n) (all_entries fs) /\ In (txt "double*") var) /\
  (exists n, In (TBasis, txt "double", txt "double", n) (all_entries fs)).
Proof. exact (conj extern_subset extern_iff). Qed.
Print Assumptions C55_extern.

Example C55_case_extern : exists c sigs, collect 300 sample_lib coll_empty = RRet c tt /\ write_header sample_var c = Ok sigs /\ incl extern_declared sigs.
Proof. exact sample_provides. Qed.

(** C55, for every library: one without basis sets lacks functions that the C interface calls. *)
Theorem C55_extern_refuted : exists c sigs, collect 100 two_classes coll_empty = RRet c tt /\ write_header sample_var c = Ok sigs /\ ~ incl extern_called sigs.
Proof. exact two_not_extern. Qed.
Print Assumptions C55_extern_refuted.

(** C55, that a name declared twice is noticed: not if the two classes have different base classes, though the source then includes both files. *)
Theorem C55_same_name_refuted : exists c, collect 300 same_name coll_empty = RRet c tt /\ co_file c = [txt "A.hh"; txt "B.hh"] /\
  In (TSimple, txt "double", txt "double", txt "A") (file_entries (nth 0 same_name (txt "", None))) /\
  In (TBasis, txt "double", txt "double", txt "A") (file_entries (nth 1 same_name (txt "", None))).
Proof. exact same_name_accepted. Qed.
Print Assumptions C55_same_name_refuted.

(** C56. The texts of the generated header and source, read back, are the functions of C44: the same parameters in the same order, and for each its branches. *)
Theorem C56_text : forall fs fuel c var st sigs defs, (forall f t, In (f, Some t) fs -> List.length t + 1 < fuel)%nat -> (0 < fuel)%nat ->
  collect fuel fs coll_empty = RRet c tt -> write_header var c = Ok sigs -> write_source var c = Ok defs ->
  writable_library var (all_entries fs) -> Forall one_line [st_created st; st_version st; st_url st; st_commit st] -> Forall (fun f => one_line (fst f)) fs ->
  exists ht src ds fds, header_text st var c = Ok ht /\ source_text st var c = Ok src /\ read_header ht = Some ds /\ Forall2 params_of sigs ds /\
    read_source src = Some fds /\ Forall2 def_of defs fds.
Proof. exact library_text. Qed.
Print Assumptions C56_text.

Example C56_case_text : (forall f t, In (f, Some t) sample_lib -> List.length t + 1 < 300)%nat /\ writable_library sample_var (all_entries sample_lib) /\
  Forall one_line [st_created sample_stamp; st_version sample_stamp; st_url sample_stamp; st_commit sample_stamp] /\ Forall (fun f => one_line (fst f)) sample_lib /\
  def_text KSimpleFunction (txt "double*") (txt "double") (Some (txt "double*")) [txt "MyFunc_f"] =
  txt "        void PLibrary::checkout( std::string name, PSimpleFunction< double*, double > &simplefunc)" ++ [nl] ++
  txt "        {" ++ [nl] ++
  txt "            typedef PSimpleFunction< double*, double > psf;" ++ [nl] ++
  txt "            if( name == ""MyFunc_f"") { simplefunc = psf( MyFunc_f< double* >() ); return;}" ++ [nl] ++
  txt "            else throw std::runtime_error( ""PSimpleFunction< double*, double > "" + name + "" was not found in the PLibrary"");" ++ [nl] ++
  txt "        }" ++ [nl].
Proof. exact (conj sample_fuel (conj sample_writable (conj (proj1 sample_lines) (conj (proj2 sample_lines) sample_text)))). Qed.

(** C56. Calling a function read from the text does what C44 says: it hands out the class of that name, copied into the parameter's type if that is not a
    pointer, or throws. *)
Theorem C56_calls : forall f d n, def_of f d ->
  (forall x, run_checkout f n = Ok x -> exists b, call_def d n = Ok b /\ hands_out (ck_sig f) (fn_params d) n x b) /\
  (run_checkout f n = Throw RuntimeError -> call_def d n = Throw RuntimeError).
Proof. exact call_same. Qed.
Print Assumptions C56_calls.

Example C56_case_calls : exists c src fds d, collect 300 sample_lib coll_empty = RRet c tt /\ source_text sample_stamp sample_var c = Ok src /\ read_source src = Some fds /\
  List.length fds = 14%nat /\ In d fds /\ pa_type (fn_params d) = mkType (txt "PFuncBase") [Word (txt "double"); Punct "*"; Punct ","; Word (txt "double")] /\
  call_def d (txt "MyFunc") = Ok (mkBranch (txt "MyFunc") (txt "func") None (mkObject (txt "MyFunc") (Some [Word (txt "double"); Punct "*"]) false)) /\
  call_def d (txt "Monomial") = Throw RuntimeError.
Proof. exact sample_read. Qed.

(** C56. A class spelled on a line of a scanned file can be checked out, by its name, from a function in the generated text whose parameter is its base class
    for its types - whatever the layout of the declaration, and even if C45 files its types cut in the wrong place. A class template over the container can be
    checked out for each container, if no blank or comma follows the container. *)
Theorem C56_class : forall fs fuel c var st f0 content line k kd n i o w8 w9,
  (forall f t, In (f, Some t) fs -> List.length t + 1 < fuel)%nat -> (0 < fuel)%nat -> collect fuel fs coll_empty = RRet c tt ->
  writable_library var (all_entries fs) -> Forall one_line [st_created st; st_version st; st_url st; st_commit st] -> Forall (fun f => one_line (fst f)) fs ->
  In (f0, Some content) fs -> In line (lines_of (Some content)) -> In k filing -> base_kind (fst k) kd ->
  spelled (fst k) n i o [w8; w9] line -> writable i -> writable o ->
  (forall k', In k' filing -> fst k' <> fst k -> find_class (fst k') line = None) ->
  exists src fds, source_text st var c = Ok src /\ read_source src = Some fds /\
    (i <> txt "VarContainer" \/ sized kd = true ->
       exists d b, In d fds /\ pa_type (fn_params d) = mkType (fst k) (pair_toks i o) /\ pa_pointer (fn_params d) = true /\
         call_def d n = Ok b /\ br_var b = pa_var (fn_params d) /\ br_as b = None /\ br_object b = mkObject n None (sized kd)) /\
    (forall v, i = txt "VarContainer" -> sized kd = false -> w8 = [] -> ~ In ","%char o -> In v var ->
       exists d b, In d fds /\ pa_type (fn_params d) = mkType (fst k) (pair_toks v o) /\ pa_pointer (fn_params d) = true /\
         call_def d n = Ok b /\ br_var b = pa_var (fn_params d) /\ br_as b = None /\ br_object b = mkObject n (Some (toks v)) false).
Proof. exact class_in_text. Qed.
Print Assumptions C56_class.

Example C56_case_class : (exists content, In (txt "MyFunc.hh", Some content) sample_lib /\ In sample_line (lines_of (Some content))) /\
  In (txt "PFuncBase", [TFunc]) filing /\ base_kind (txt "PFuncBase") KFuncBase /\
  spelled (txt "PFuncBase") (txt "MyFunc") (txt "VarContainer") (txt "double") [[]; []] sample_line /\ writable (txt "VarContainer") /\ writable (txt "double") /\
  (forall k', In k' filing -> fst k' <> txt "PFuncBase" -> find_class (fst k') sample_line = None).
Proof. exact sample_spelled. Qed.

(** C56, that no function is defined twice in the text: two classes whose types differ in layout only give different signatures, but the same function. *)
Theorem C56_defined_twice_refuted : exists c sigs src fds, collect 300 two_layouts coll_empty = RRet c tt /\ write_header [] c = Ok sigs /\ NoDup sigs /\
  source_text sample_stamp [] c = Ok src /\ read_source src = Some fds /\ ~ NoDup (map fn_params fds).
Proof. exact layouts_twice. Qed.
Print Assumptions C56_defined_twice_refuted.

(** C56, for every class template: with a comma in the output type the container is not recognised, and the text names a type that does not exist. *)
Theorem C56_container_refuted : exists c src fds d, collect 300 comma_template coll_empty = RRet c tt /\ source_text sample_stamp sample_var c = Ok src /\
  read_source src = Some fds /\ In d fds /\ In (Word (txt "VarContainer")) (ty_args (pa_type (fn_params d))).
Proof. exact comma_container. Qed.
Print Assumptions C56_container_refuted.
