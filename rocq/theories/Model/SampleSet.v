(** Model of the generated basis sets as objects: tests/testlib/Monomial.hh 2620-2914 and Chebyshev.hh 2620-2914, which hold a vector of PFunction
    objects, one per term. BasisSet.v has the same sets with the term functions taken as functions. *)
From Coq Require Import ZArith List Bool String.
From Verif Require Import Model.Outcome Model.Num Model.PSimple Model.BasisSet Model.PFlex Model.Samples.
Import ListNotations.
Local Open Scope Z_scope.

(** A PFunction that holds a PFlexFunction, as a value of its own (justified by C28): [None] when its pointer is NULL. *)
Definition pfun (X A : Type) : Type := option (flex X A).

(** What distinguishes the generated classes: _name (Monomial.hh 2888), max_size (2857-2860) and basis_function (2656-2855). *)
Record setclass (X A : Type) : Type := mkSetclass {
  sk_name : string;
  sk_limit : Z;
  sk_function : Z -> outcome (pfun X A)
}.
Arguments mkSetclass {X A}.
Arguments sk_name {X A}.
Arguments sk_limit {X A}.
Arguments sk_function {X A}.

(** PBasisSetBase.hh 23-28 (_description left out) and Monomial.hh 2626 (_basis_function). *)
Record mset (X A : Type) : Type := mkMset {
  ms_name : string;
  ms_val : list A;
  ms_gval : list A;
  ms_hval : list A;
  ms_fs : list (pfun X A)
}.
Arguments mkMset {X A}.
Arguments ms_name {X A}.
Arguments ms_val {X A}.
Arguments ms_gval {X A}.
Arguments ms_hval {X A}.
Arguments ms_fs {X A}.

Section Sets.
Context {X A : Type} (c : setclass X A) (d : A).

(** PFunction.hh 137-143: operator=, from another PFunction: RHS.ptr->clone(). *)
Definition pfun_assign (old new : pfun X A) : outcome (pfun X A) :=
  match new with
  | None => UB UBNull
  | Some f => let* g := fl_clone f in Ok (Some g)
  end.
(** A call through the pointer of a PFunction: PFunction.hh 93-104. *)
Definition pfun_do {B : Type} (m : M (flex X A) B) : M (pfun X A) B :=
  fun p => match p with
           | None => RUB UBNull
           | Some f => match m f with
                       | RRet f' b => RRet (Some f') b
                       | RThrow f' e => RThrow (Some f') e
                       | RExit => RExit
                       | RUB r => RUB r
                       | RNoFuel => RNoFuel
                       end
           end.

(** PBasisSetBase.hh 38-41: size. *)
Definition ms_size (s : mset X A) : Z := Z.of_nat (List.length (ms_val s)).

(** _basis_function[i] = f (Monomial.hh 2895, 2911). *)
Definition set_function (f : pfun X A) (i : Z) : M (mset X A) unit :=
  do* s := mget in
  do* old := mlift (vget (ms_fs s) i) in
  do* new := mlift (pfun_assign old f) in
  do* fs := mlift (vset (ms_fs s) i new) in
  mput (mkMset (ms_name s) (ms_val s) (ms_gval s) (ms_hval s) fs).

(** Monomial.hh 2885-2898: construct. The vectors are resized, which keeps their first elements; new numbers are value-initialised ([d]), new
    PFunction objects empty; that a reallocation copies the PFunction objects (PFunction.hh 175-181) is left out. The size is at most max_size, so that no vector is too long. *)
Definition ms_construct (N : Z) : M (mset X A) unit :=
  if sk_limit c <? N then mlift Exit
  else
    do* s := mget in
    mput (mkMset (sk_name c) (vresize d (ms_val s) (Z.to_nat N)) (vresize d (ms_gval s) (Z.to_nat N)) (vresize d (ms_hval s) (Z.to_nat N))
                 (vresize None (ms_fs s) (Z.to_nat N))) ;;;
    do* s' := mget in
    mfor (zseq (ms_size s')) (fun i => do* f := mlift (sk_function c i) in set_function f i).

(** Monomial.hh 2900-2912: copy, of the first terms. *)
Definition ms_copy_from (r : mset X A) : M (mset X A) unit :=
  do* s := mget in
  mput (mkMset (ms_name r) (ms_val s) (ms_gval s) (ms_hval s) (ms_fs s)) ;;;
  mfor (zseq (if ms_size r <? ms_size s then ms_size r else ms_size s)) (fun i =>
    do* s := mget in
    do* a := mlift (vget (ms_val r) i) in
    do* v := mlift (vset (ms_val s) i a) in
    do* b := mlift (vget (ms_gval r) i) in
    do* g := mlift (vset (ms_gval s) i b) in
    do* h := mlift (vget (ms_hval r) i) in
    do* w := mlift (vset (ms_hval s) i h) in
    mput (mkMset (ms_name s) v g w (ms_fs s)) ;;;
    do* f := mlift (vget (ms_fs r) i) in
    set_function f i).

(** PBasisSetBase.hh 43-46, 53-58: the base class's constructor, which calls the base class's resize. *)
Definition ms_base (N : Z) : outcome (mset X A) :=
  if size_too_big <=? N then Throw LengthError
  else Ok (mkMset "" (vresize d [] (Z.to_nat N)) (vresize d [] (Z.to_nat N)) (vresize d [] (Z.to_nat N)) []).

(** The end of a constructor that has run [m] on the base [s]. *)
Definition constructed (s : mset X A) (m : M (mset X A) unit) : outcome (mset X A) :=
  match m s with
  | RRet s' _ => Ok s'
  | RThrow _ e => Throw e
  | RExit => Exit
  | RUB r => UB r
  | RNoFuel => NoFuel
  end.

(** Monomial.hh 2628-2631: constructor. *)
Definition ms_new (N : Z) : outcome (mset X A) := let* s := ms_base N in constructed s (ms_construct N).

(** Monomial.hh 2633-2637: copy constructor; 2651-2654: clone. *)
Definition ms_copy (r : mset X A) : outcome (mset X A) :=
  let* s := ms_base (ms_size r) in constructed s (ms_construct (ms_size r) ;;; ms_copy_from r).

(** Monomial.hh 2639-2645: operator=, from another object. *)
Definition ms_assign (r : mset X A) : M (mset X A) unit := ms_construct (ms_size r) ;;; ms_copy_from r.

(** Monomial.hh 2862-2867: resize. *)
Definition ms_resize (N : Z) : M (mset X A) unit :=
  do* s := mget in
  do* tmp := mlift (ms_copy s) in
  ms_construct N ;;;
  ms_copy_from tmp.

(** A call on term [i] of _basis_function. *)
Definition on_term {B : Type} (i : Z) (m : M (flex X A) B) : M (mset X A) B :=
  fun s =>
    let put fs := mkMset (ms_name s) (ms_val s) (ms_gval s) (ms_hval s) fs in
    match on_elem i (pfun_do m) (ms_fs s) with
    | RRet fs b => RRet (put fs) b
    | RThrow fs e => RThrow (put fs) e
    | RExit => RExit
    | RUB r => RUB r
    | RNoFuel => RNoFuel
    end.

(** Monomial.hh 2870-2883: eval(term, var), eval_grad, eval_hess; PBasisSetBase.hh 84-95: operator()(term, var), grad, hess. *)
Definition ms_call (term : Z) (var : X) : M (mset X A) A :=
  do* a := on_term term (fl_call var) in
  do* s := mget in
  do* v := mlift (vset (ms_val s) term a) in
  mput (mkMset (ms_name s) v (ms_gval s) (ms_hval s) (ms_fs s)) ;;;
  mret a.
Definition ms_call_grad (term : Z) (var : X) : M (mset X A) A :=
  do* a := on_term term (fl_call_grad var 0) in
  do* s := mget in
  do* v := mlift (vset (ms_gval s) term a) in
  mput (mkMset (ms_name s) (ms_val s) v (ms_hval s) (ms_fs s)) ;;;
  mret a.
Definition ms_call_hess (term : Z) (var : X) : M (mset X A) A :=
  do* a := on_term term (fl_call_hess var 0 0) in
  do* s := mget in
  do* v := mlift (vset (ms_hval s) term a) in
  mput (mkMset (ms_name s) (ms_val s) (ms_gval s) v (ms_fs s)) ;;;
  mret a.

(** PBasisSetBase.hh 104-121: eval(var), eval_grad, eval_hess. *)
Definition ms_eval (var : X) : M (mset X A) (list A) :=
  do* s := mget in
  mfor (zseq (ms_size s)) (fun i => ms_call i var ;;; mret tt) ;;;
  do* s' := mget in
  mret (ms_val s').
Definition ms_eval_grad (var : X) : M (mset X A) (list A) :=
  do* s := mget in
  mfor (zseq (ms_size s)) (fun i => ms_call_grad i var ;;; mret tt) ;;;
  do* s' := mget in
  mret (ms_gval s').
Definition ms_eval_hess (var : X) : M (mset X A) (list A) :=
  do* s := mget in
  mfor (zseq (ms_size s)) (fun i => ms_call_hess i var ;;; mret tt) ;;;
  do* s' := mget in
  mret (ms_hval s').

(** PBasisSetBase.hh 124-135: the getters. *)
Definition ms_get (s : mset X A) (term : Z) : outcome A := vget (ms_val s) term.
Definition ms_get_grad (s : mset X A) (term : Z) : outcome A := vget (ms_gval s) term.
Definition ms_get_hess (s : mset X A) (term : Z) : outcome A := vget (ms_hval s) term.

End Sets.

(** A new object of one of the classes for a single term, e.g. Monomial_0 (Monomial.hh 10-38); they have no name and _val is indeterminate. *)
Definition new_term (O : NumOps) (pw : num O -> num O -> num O) (l : list sclass) (n : string) : simple (num O) (num O) :=
  mkSimple "" (fun x => named_eval O pw l n [x]) None.

(** Monomial.hh 2656-2855 and Chebyshev.hh 2656-2855: basis_function. The names and descriptions of the variable are "x". *)
Definition sample_function (O : NumOps) (pw : num O -> num O -> num O) (l : list sclass) (cases : list (string * string * string)) (term : Z) :
    outcome (pfun (num O) (num O)) :=
  if 30 <=? term then Exit
  else
    let* k := vget cases term in
    let* tmp := fl_make (fst (fst k)) ["x"%string] ["x"%string] (Some (new_term O pw l (fst (fst k)))) [Some (new_term O pw l (snd (fst k)))]
                  [[Some (new_term O pw l (snd k))]] in
    let* f := fl_clone tmp in
    Ok (Some f).

(** The classes Monomial and Chebyshev. *)
Definition monomial_class (O : NumOps) pw := mkSetclass "Monomial" 30 (sample_function O pw monomial_classes monomial_cases).
Definition chebyshev_class (O : NumOps) pw := mkSetclass "Chebyshev" 30 (sample_function O pw chebyshev_classes chebyshev_cases).
