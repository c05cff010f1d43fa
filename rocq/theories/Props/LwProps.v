(** C43-C45: the library writer. *)
From Coq Require Import ZArith List Bool Ascii String.
From Verif Require Import Model.Outcome Model.Stream Model.Lw Spec.Lw Proofs.LwP Proofs.LwGenP Proofs.LwRegexP.
Import ListNotations.

(** C43. Whatever files are scanned, either no class is declared twice for the same base class and types and the tables hold exactly the classes
    declared, a cell per pair of types, or the program exits. [all_entries] lists what the files declare; the fuel only has to exceed the file sizes. *)
Theorem C43_tables : forall (fs : list (text * option text)) fuel,
  (forall f t, In (f, Some t) fs -> List.length t + 1 < fuel)%nat -> (0 < fuel)%nat ->
  (~ NoDup (all_entries fs) /\ collect fuel fs coll_empty = RExit) \/
  (NoDup (all_entries fs) /\ exists c, collect fuel fs coll_empty = RRet c tt /\ holds_entries c (all_entries fs) /\ types_used c (all_entries fs) /\ NoDup (co_file c) /\
     forall g, In g (co_file c) <-> exists fc, In fc fs /\ g = fst fc /\ file_entries fc <> []).
Proof. exact collect_spec. Qed.
Print Assumptions C43_tables.

Example C43_case_tables : (forall f t, In (f, Some t) two_classes -> List.length t + 1 < 100)%nat /\ NoDup (all_entries two_classes) /\
  (exists c, collect 100 two_classes coll_empty = RRet c tt /\ co_in c = [txt "double"; txt "VarContainer"] /\ co_out c = [txt "double"] /\
    co_simple c = [[[txt "A"]]; [[txt "B"]]] /\ co_file c = [txt "A.hh"; txt "B.hh"]) /\
  collect 100 (two_classes ++ two_classes) coll_empty = RExit.
Proof. exact (conj two_fuel (conj two_nodup (conj example_collected twice_exits))). Qed.

(** C43. A piecewise class is filed as an ordinary function too. *)
Theorem C43_piecewise_too : forall fs it ot n,
  (In (TPwSimple, it, ot, n) (all_entries fs) -> In (TSimple, it, ot, n) (all_entries fs)) /\
  (In (TPwFunc, it, ot, n) (all_entries fs) -> In (TFunc, it, ot, n) (all_entries fs)).
Proof. exact (fun fs it ot n => conj (all_base fs TPwSimple it ot n) (all_base fs TPwFunc it ot n)). Qed.
Print Assumptions C43_piecewise_too.

Example C43_case_piecewise : all_entries [(txt "P.hh", Some (txt "class P: public PPieceWiseFuncBase<double, double>"))] =
  [(TFunc, txt "double", txt "double", txt "P"); (TPwFunc, txt "double", txt "double", txt "P")].
Proof. vm_compute. reflexivity. Qed.

(** C43. The files of a directory that are scanned. *)
Theorem C43_headers : forall s, is_generated_header s = true <-> scanned_header s.
Proof. exact header_iff. Qed.
Print Assumptions C43_headers.

Example C43_case_headers : is_generated_header (txt "MyFunc.hh") = true /\ is_generated_header (txt "PLibrary.hh") = false /\ is_generated_header (txt "MyFunc.cc") = false.
Proof. exact (conj eq_refl (conj eq_refl eq_refl)). Qed.

(** C44. The functions declared in the generated header are, one by one, those defined in the generated source. *)
Theorem C44_declared_as_defined : forall fs fuel c var,
  (forall f t, In (f, Some t) fs -> List.length t + 1 < fuel)%nat -> (0 < fuel)%nat -> collect fuel fs coll_empty = RRet c tt ->
  exists sigs defs, write_header var c = Ok sigs /\ write_source var c = Ok defs /\ map ck_sig defs = sigs.
Proof. exact library_spec. Qed.
Print Assumptions C44_declared_as_defined.

(** C44. Every class filed can be checked out under its types, and whatever a checkout function hands out is filed; otherwise it throws. *)
Theorem C44_checkout : forall fs fuel c var defs,
  (forall f t, In (f, Some t) fs -> List.length t + 1 < fuel)%nat -> (0 < fuel)%nat -> collect fuel fs coll_empty = RRet c tt -> write_source var c = Ok defs ->
  (forall s n x, offered var (all_entries fs) s n x -> exists f, In f defs /\ ck_sig f = s /\ run_checkout f n = Ok x) /\
  (forall f n, In f defs -> (exists x, run_checkout f n = Ok x /\ offered var (all_entries fs) (ck_sig f) n x) \/ run_checkout f n = Throw RuntimeError).
Proof. exact checkout_spec. Qed.
Print Assumptions C44_checkout.

(** C44. If the variable containers differ from each other and from every input type declared, no function is defined twice, and each hands out exactly
    the classes filed under its types. *)
Theorem C44_checkout_exact : forall fs fuel c var defs,
  (forall f t, In (f, Some t) fs -> List.length t + 1 < fuel)%nat -> (0 < fuel)%nat -> collect fuel fs coll_empty = RRet c tt -> write_source var c = Ok defs ->
  NoDup var -> (forall v t ot n, In v var -> v <> txt "VarContainer" -> ~ In (t, v, ot, n) (all_entries fs)) ->
  NoDup (map ck_sig defs) /\
  forall f n, In f defs -> (forall x, run_checkout f n = Ok x <-> offered var (all_entries fs) (ck_sig f) n x) /\
    ((forall x, ~ offered var (all_entries fs) (ck_sig f) n x) -> run_checkout f n = Throw RuntimeError).
Proof. exact checkout_exact. Qed.
Print Assumptions C44_checkout_exact.

Example C44_case_checkout : exists c defs f, collect 100 two_classes coll_empty = RRet c tt /\ write_source [txt "Vec"] c = Ok defs /\ List.length defs = 4%nat /\
  In f defs /\ ck_sig f = mkSig KSimpleFunction (txt "Vec") (txt "double") /\ run_checkout f (txt "B") = Ok (mkInst (txt "B") (Some (txt "Vec"))) /\
  run_checkout f (txt "A") = Throw RuntimeError.
Proof. exact example_checkout. Qed.

(** C44, without the condition on the variable containers: a container that is also an input type makes the same function be declared twice. *)
Theorem C44_declared_twice_refuted : exists c sigs,
  collect 100 two_classes coll_empty = RRet c tt /\ write_header [txt "double"] c = Ok sigs /\ ~ NoDup sigs.
Proof. exact duplicate_witness. Qed.
Print Assumptions C44_declared_twice_refuted.

(** C45. What the scanner finds in a line: the first declaration, the types being what stands before and after the last comma. *)
Theorem C45_found : forall k line n i o, In k filing -> find_class (fst k) line = Some (n, i, o) <-> declares (fst k) line n i o.
Proof. exact (fun k line n i o H => find_class_iff (fst k) line n i o (kinds_words k H)). Qed.
Print Assumptions C45_found.

Theorem C45_not_found : forall k line, In k filing -> find_class (fst k) line = None <-> forall pre s n i o, line = pre ++ s -> ~ declares_at (fst k) n i o s.
Proof. exact (fun k line H => find_class_none (fst k) line (kinds_words k H)). Qed.
Print Assumptions C45_not_found.

(** C45. What is filed for each way of spelling a declaration, [w8] and [w9] being the blanks behind the two types: these become part of the
    types; and an output type with commas is cut at the last, all before it being taken into the input type. *)
Theorem C45_layout : forall k n i o w8 w9 line, In k filing -> spelled (fst k) n i o [w8; w9] line ->
  (~ In ","%char o -> find_class (fst k) line = Some (n, i ++ w8, o ++ w9)) /\
  (forall o1 o2, o = o1 ++ txt "," ++ o2 -> ~ In ","%char o2 ->
     exists w7 w r, blank w7 /\ o2 ++ w9 = w ++ r /\ blank w /\ ~ starts_blank r /\ find_class (fst k) line = Some (n, i ++ w8 ++ txt "," ++ w7 ++ o1, r)).
Proof. exact (fun k n i o w8 w9 line H => spelled_cases (fst k) n i o w8 w9 line (kinds_words k H)). Qed.
Print Assumptions C45_layout.

(** C45. So the types are filed as meant exactly when no blank is behind them and the output type has no comma. *)
Theorem C45_layout_iff : forall k n i o w8 w9 line, In k filing -> spelled (fst k) n i o [w8; w9] line ->
  find_class (fst k) line = Some (n, i, o) <-> w8 = [] /\ w9 = [] /\ ~ In ","%char o.
Proof. exact (fun k n i o w8 w9 line H => spelled_iff (fst k) n i o w8 w9 line (kinds_words k H)). Qed.
Print Assumptions C45_layout_iff.

Example C45_case_layout : exists line, spelled (txt "PFuncBase") (txt "My_Func") (txt "VarContainer") (txt "double") [[]; []] line /\
  find_class (txt "PFuncBase") line = Some (txt "My_Func", txt "VarContainer", txt "double").
Proof. exact spelled_example. Qed.

(** C45. A blank behind a type becomes part of it. *)
Theorem C45_trailing_blank_refuted : exists w line, spelled (txt "PSimpleBase") (txt "A") (txt "double") (txt "double") w line /\
  find_class (txt "PSimpleBase") line = Some (txt "A", txt "double ", txt "double").
Proof. exact spelled_trailing. Qed.
Print Assumptions C45_trailing_blank_refuted.

(** C45. An output type with a comma is cut at it. *)
Theorem C45_comma_refuted : exists line, spelled (txt "PSimpleBase") (txt "A") (txt "double") (txt "std::map<int,int>") [[]; []] line /\
  find_class (txt "PSimpleBase") line = Some (txt "A", txt "double,std::map<int", txt "int>").
Proof. exact spelled_comma. Qed.
Print Assumptions C45_comma_refuted.
