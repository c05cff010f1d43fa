(** Model of include/IntegrationTools/pfunction/PBasisSetBase.hh and PBasisSet.hh (evaluation and storage; the ownership side
    of PBasisSet is in Wrapper.v). *)
From Coq Require Import ZArith List String.
From Verif Require Import Model.Outcome.
Import ListNotations.
Local Open Scope Z_scope.

(** Index values of the loops [for(i=0; i<n; i++)]. *)
Definition zseq (n : Z) : list Z := map Z.of_nat (seq 0 (Z.to_nat n)).

(** PBasisSetBase.hh 23-28 (_name, _val, _grad_val, _hess_val; _description left out) together with the virtual functions of
    the dynamic class: eval(term, var), eval_grad(term, var), eval_hess(term, var) (156-170) and max_size (65-69; [None] for
    the base class's numeric_limits maximum).
    Simplification: the term functions are functions of (term, var); in the generated classes (tests/testlib/Monomial.hh
    2870-2883) they call PFunction objects whose own stored values are never read here. *)
Record bset (X A : Type) : Type := mkBset {
  bs_name : string;
  bs_limit : option Z;
  bs_fun : Z -> X -> outcome A;
  bs_dfun : Z -> X -> outcome A;
  bs_ddfun : Z -> X -> outcome A;
  bs_val : list A;
  bs_gval : list A;
  bs_hval : list A
}.
Arguments mkBset {X A}.
Arguments bs_name {X A}.
Arguments bs_limit {X A}.
Arguments bs_fun {X A}.
Arguments bs_dfun {X A}.
Arguments bs_ddfun {X A}.
Arguments bs_val {X A}.
Arguments bs_gval {X A}.
Arguments bs_hval {X A}.

Section BasisSet.
Context {X A : Type}.
Local Notation bset := (bset X A).

(** Assignment to the members _val, _grad_val, _hess_val. *)
Definition bs_store (b : bset) (v g h : list A) : bset :=
  mkBset (bs_name b) (bs_limit b) (bs_fun b) (bs_dfun b) (bs_ddfun b) v g h.

(** PBasisSetBase.hh 156-170: the base class's own term functions call undefined (172-177), which exits. *)
Definition bs_undefined (term : Z) (var : X) : outcome A := Exit.

(** PBasisSetBase.hh 38-41: size. *)
Definition bs_size (b : bset) : Z := Z.of_nat (List.length (bs_val b)).

(** Sizes std::vector refuses with length_error. A negative int passed for a size becomes one of them. *)
Definition size_too_big : Z := 2 ^ 63.

(** PBasisSetBase.hh 53-58: resize; and the generated classes' resize, Monomial.hh 2862-2867 with construct 2885-2898 and copy
    2900-2912: exit(1) beyond the limit, otherwise the stored results of the first terms are kept and new ones are
    value-initialised ([d]). [N] is the size_type value. *)
Definition bs_resize (d : A) (N : Z) : M bset unit :=
  do* b := mget in
  let beyond := match bs_limit b with Some l => l <? N | None => false end in
  if beyond then mlift Exit
  else if size_too_big <=? N then mlift (Throw LengthError)
  else mput (bs_store b (vresize d (bs_val b) (Z.to_nat N)) (vresize d (bs_gval b) (Z.to_nat N))
                        (vresize d (bs_hval b) (Z.to_nat N))).

(** PBasisSetBase.hh 43-46 (and Monomial.hh 2626-2629): constructor of a set with the given term functions. The base class's constructor
    runs first, with the base class's resize; the limit is checked in construct (2885-2887). *)
Definition bs_make (d : A) (name : string) (limit : option Z) (f df ddf : Z -> X -> outcome A) (N : Z) : outcome bset :=
  if size_too_big <=? N then Throw LengthError
  else match bs_resize d N (mkBset name limit f df ddf [] [] []) with
  | RRet b _ => Ok b
  | RThrow _ e => Throw e
  | RExit => Exit
  | RUB r => UB r
  | RNoFuel => NoFuel
  end.

(** PBasisSetBase.hh 84-87: operator()(term, var). *)
Definition bs_call (term : Z) (var : X) : M bset A :=
  do* b := mget in
  do* a := mlift (bs_fun b term var) in
  do* v := mlift (vset (bs_val b) term a) in
  mput (bs_store b v (bs_gval b) (bs_hval b)) ;;;
  mret a.

(** PBasisSetBase.hh 88-91: grad(term, var). *)
Definition bs_call_grad (term : Z) (var : X) : M bset A :=
  do* b := mget in
  do* a := mlift (bs_dfun b term var) in
  do* v := mlift (vset (bs_gval b) term a) in
  mput (bs_store b (bs_val b) v (bs_hval b)) ;;;
  mret a.

(** PBasisSetBase.hh 92-95: hess(term, var). *)
Definition bs_call_hess (term : Z) (var : X) : M bset A :=
  do* b := mget in
  do* a := mlift (bs_ddfun b term var) in
  do* v := mlift (vset (bs_hval b) term a) in
  mput (bs_store b (bs_val b) (bs_gval b) v) ;;;
  mret a.

(** PBasisSetBase.hh 104-109: eval(var), returning _val. *)
Definition bs_eval (var : X) : M bset (list A) :=
  do* b := mget in
  mfor (zseq (bs_size b)) (fun i => bs_call i var ;;; mret tt) ;;;
  do* b' := mget in
  mret (bs_val b').

(** PBasisSetBase.hh 110-115: eval_grad(var), returning _grad_val. *)
Definition bs_eval_grad (var : X) : M bset (list A) :=
  do* b := mget in
  mfor (zseq (bs_size b)) (fun i => bs_call_grad i var ;;; mret tt) ;;;
  do* b' := mget in
  mret (bs_gval b').

(** PBasisSetBase.hh 116-121: eval_hess(var), returning _hess_val. *)
Definition bs_eval_hess (var : X) : M bset (list A) :=
  do* b := mget in
  mfor (zseq (bs_size b)) (fun i => bs_call_hess i var ;;; mret tt) ;;;
  do* b' := mget in
  mret (bs_hval b').

(** PBasisSetBase.hh 124-135: the getters. *)
Definition bs_get (b : bset) (term : Z) : outcome A := vget (bs_val b) term.
Definition bs_get_grad (b : bset) (term : Z) : outcome A := vget (bs_gval b) term.
Definition bs_get_hess (b : bset) (term : Z) : outcome A := vget (bs_hval b) term.

(** PBasisSetBase.hh 65-69 and Monomial.hh 2857-2860: max_size as a size_type. *)
Definition bs_max_size (b : bset) : Z :=
  match bs_limit b with
  | Some l => l
  | None => 2 ^ 64 - 1
  end.

(** Conversion of a size_type to int (modulo 2^32, as on every supported compiler). *)
Definition size_to_int (n : Z) : Z :=
  let m := n mod 2 ^ 32 in if m <? 2 ^ 31 then m else m - 2 ^ 32.

(** Conversion of an int to size_type. *)
Definition int_to_size (n : Z) : Z := n mod 2 ^ 64.

(** ** PBasisSet.hh: the wrapper; [None] is the null pointer of a default-constructed PBasisSet (156-159). *)

(** A call through ptr. *)
Definition on_ptr {B : Type} (m : M bset B) : M (option bset) B :=
  fun p => match p with
           | None => RUB UBNull
           | Some b => match m b with
                       | RRet b' a => RRet (Some b') a
                       | RThrow b' e => RThrow (Some b') e
                       | RExit => RExit
                       | RUB r => RUB r
                       | RNoFuel => RNoFuel
                       end
           end.

(** A getter through ptr. *)
Definition of_ptr {B : Type} (f : bset -> outcome B) (p : option bset) : outcome B :=
  match p with
  | None => UB UBNull
  | Some b => f b
  end.

(** PBasisSet.hh 31-34: size, as an int. *)
Definition pb_size (p : option bset) : outcome Z := of_ptr (fun b => Ok (size_to_int (bs_size b))) p.

(** PBasisSet.hh 37-40: resize. *)
Definition pb_resize (d : A) (N : Z) : M (option bset) unit := on_ptr (bs_resize d (int_to_size N)).

(** PBasisSet.hh 42-46: max_size, as an int. *)
Definition pb_max_size (p : option bset) : outcome Z := of_ptr (fun b => Ok (size_to_int (bs_max_size b))) p.

(** PBasisSet.hh 60-71: the single evaluations; the int term becomes a size_type. *)
Definition pb_call (term : Z) (var : X) : M (option bset) A := on_ptr (bs_call (int_to_size term) var).
Definition pb_call_grad (term : Z) (var : X) : M (option bset) A := on_ptr (bs_call_grad (int_to_size term) var).
Definition pb_call_hess (term : Z) (var : X) : M (option bset) A := on_ptr (bs_call_hess (int_to_size term) var).

(** PBasisSet.hh 80-91: the evaluations of all terms. *)
Definition pb_eval (var : X) : M (option bset) (list A) := on_ptr (bs_eval var).
Definition pb_eval_grad (var : X) : M (option bset) (list A) := on_ptr (bs_eval_grad var).
Definition pb_eval_hess (var : X) : M (option bset) (list A) := on_ptr (bs_eval_hess var).

(** PBasisSet.hh 94-105: the getters. *)
Definition pb_get (p : option bset) (term : Z) : outcome A := of_ptr (fun b => bs_get b (int_to_size term)) p.
Definition pb_get_grad (p : option bset) (term : Z) : outcome A := of_ptr (fun b => bs_get_grad b (int_to_size term)) p.
Definition pb_get_hess (p : option bset) (term : Z) : outcome A := of_ptr (fun b => bs_get_hess b (int_to_size term)) p.

End BasisSet.
