(** C28, C29: ownership in PFunction, PSimpleFunction and PBasisSet. *)
From Coq Require Import ZArith List.
From Verif Require Import Model.Outcome Model.PSimple Model.Wrapper Spec.Ownership Proofs.WrapperP.
Import ListNotations.

(** C28. A permitted program runs without undefined behaviour and does what it says when every wrapper is a value of its own. *)
Theorem C28_wrappers_are_values : forall (T B : Type) (clone : T -> outcome T) (os : list (wop T B)) rs v,
  vrun clone vstart os rs v -> exists s, run clone os start = Ok (rs, s) /\ represents s v.
Proof. exact @values_run. Qed.
Print Assumptions C28_wrappers_are_values.

Example C28_case : vrun copy_of vstart prog prog_replies (mkV [None; None] [None]) /\
  nth_error prog_replies 6 = Some (Result 9%Z) /\ nth_error prog_replies 7 = Some (Result 4%Z).
Proof. exact (conj prog_values (conj eq_refl eq_refl)). Qed.

(** C28. When no wrapper holds an object and the client owns none, all memory has been freed. *)
Theorem C28_nothing_leaks : forall (T B : Type) (clone : T -> outcome T) (os : list (wop T B)) rs v,
  vrun clone vstart os rs v ->
  (forall i x, ~ holds v i (Some x)) -> (forall k x, nth_error (v_raw v) k <> Some (Some x)) ->
  exists s, run clone os start = Ok (rs, s) /\ Forall (fun c => c = None) (w_heap s).
Proof. exact @nothing_leaks. Qed.
Print Assumptions C28_nothing_leaks.

Example C28_case_leak : (forall i x, ~ holds (T := simple Z Z) (mkV [None; None] [None]) i (Some x)) /\
  (forall k x, nth_error (v_raw (mkV (T := simple Z Z) [None; None] [None])) k <> Some (Some x)) /\
  exists s, run copy_of prog start = Ok (prog_replies, s) /\ w_heap s = [None; None; None].
Proof. exact (conj (proj1 prog_empty) (conj (proj2 prog_empty) prog_memory)). Qed.

(** C28. Outside the permitted programs: an assignment whose clone() throws leaves a pointer to the deleted object behind, which the
    destructor deletes again. *)
Theorem C28_clone_throws : forall (T B : Type) (clone : T -> outcome T) s v i j x z e,
  reached B clone s v -> holds v i (Some z) -> holds v j (Some x) -> i <> j -> clone x = Throw e ->
  exists s', step (B := B) clone (OpAssign i j) s = RThrow s' e /\ step (B := B) clone (OpDestroy i) s' = RUB UBDoubleFree.
Proof. exact @assign_throw. Qed.
Print Assumptions C28_clone_throws.

Example C28_case_throws : reached Z throwing two_full_memory two_full /\ holds two_full 0 (Some square) /\ holds two_full 1 (Some used) /\
  throwing used = Throw RuntimeError.
Proof. exact (conj two_full_reached (conj eq_refl (conj eq_refl eq_refl))). Qed.

(** C28. Outside the permitted programs: set(NULL) ends the process. (A number for which the client never made an object stands for NULL.) *)
Theorem C28_set_null : forall (T B : Type) (clone : T -> outcome T) s v i k, reached B clone s v -> length (v_raw v) <= k ->
  step (B := B) clone (OpSetRaw i k) s = RExit.
Proof. exact @set_null. Qed.
Print Assumptions C28_set_null.

(** C28. A call through an empty wrapper goes through a null pointer. *)
Theorem C28_call_empty : forall (T B : Type) (clone : T -> outcome T) s v i m, reached B clone s v -> holds v i None ->
  step (B := B) clone (OpCall i m) s = RUB UBNull.
Proof. exact @call_empty. Qed.
Print Assumptions C28_call_empty.

(** C28. Every use of a destroyed wrapper is undefined. *)
Theorem C28_dead_wrapper : forall (T B : Type) (clone : T -> outcome T) s v i, reached B clone s v -> (forall o, ~ holds v i o) ->
  Forall (fun o => step (B := B) clone o s = RUB UBDangling) [OpCopy i; OpDestroy i] /\
  (forall j, step (B := B) clone (OpAssign i j) s = RUB UBDangling) /\
  (forall x, step (B := B) clone (OpAssignObj i x) s = RUB UBDangling) /\
  (forall k, k < length (v_raw v) -> step (B := B) clone (OpSetRaw i k) s = RUB UBDangling) /\
  (forall m, step (B := B) clone (OpCall i m) s = RUB UBDangling).
Proof. exact @dead_wrapper. Qed.
Print Assumptions C28_dead_wrapper.

(** C28. Giving one pointer to set twice - to two wrappers, or to one wrapper again - makes its object be deleted twice. *)
Theorem C28_set_twice : forall (T B : Type) (clone : T -> outcome T) s v i j k x oi oj, reached B clone s v -> holds v i oi -> holds v j oj ->
  nth_error (v_raw v) k = Some (Some x) ->
  run (B := B) clone [OpSetRaw i k; OpSetRaw j k; OpDestroy i; OpDestroy j] s = UB UBDoubleFree.
Proof. exact @set_twice. Qed.
Print Assumptions C28_set_twice.

Example C28_case_outside : reached Z copy_of four_memory four /\ (forall o, ~ holds four 0 o) /\ holds four 1 None /\ holds four 2 (Some square) /\
  nth_error (v_raw four) 0 = Some (Some square) /\ length (v_raw four) = 1.
Proof. exact (conj four_reached four_facts). Qed.

(** C29. Assigning a wrapper to itself, and from an empty wrapper, is undefined behaviour. *)
Theorem C29_assignment_safe_refuted : exists s v, reached Z copy_of s v /\ holds v 0 (Some square) /\ holds v 1 None /\
  step (B := Z) copy_of (OpAssign 0 0) s = RUB UBDangling /\ step (B := Z) copy_of (OpAssign 0 1) s = RUB UBNull /\
  step (B := Z) copy_of (OpAssign 1 1) s = RUB UBNull.
Proof. exact (ex_intro _ two_memory (ex_intro _ two (conj two_reached (conj eq_refl (conj eq_refl (conj eq_refl (conj eq_refl eq_refl))))))). Qed.
Print Assumptions C29_assignment_safe_refuted.

(** C29. In every reachable state these are the only undefined assignments between wrappers that are alive. *)
Theorem C29_only_bad_assignments : forall (T B : Type) (clone : T -> outcome T) s v i j oi oj,
  reached B clone s v -> holds v i oi -> holds v j oj -> (forall x, oj = Some x -> exists y, clone x = Ok y) ->
  ((i = j \/ oj = None) <-> exists u, step (B := B) clone (OpAssign i j) s = RUB u).
Proof. exact @assign_bad_iff. Qed.
Print Assumptions C29_only_bad_assignments.

Example C29_case : reached Z copy_of two_memory two /\ holds two 1 None /\ holds two 0 (Some square) /\
  exists y, copy_of square = Ok y.
Proof. exact (conj two_reached (conj eq_refl (conj eq_refl (ex_intro _ _ eq_refl)))). Qed.

(** C29. Every other assignment gives the wrapper its own copy. *)
Theorem C29_good_assignments : forall (T B : Type) (clone : T -> outcome T) s v i j oi x y,
  reached B clone s v -> holds v i oi -> holds v j (Some x) -> i <> j -> clone x = Ok y ->
  exists s', step (B := B) clone (OpAssign i j) s = RRet s' Done /\ reached B clone s' (with_wr v i (Some (Some y))).
Proof. exact @assign_good. Qed.
Print Assumptions C29_good_assignments.

Example C29_case_good : reached Z copy_of two_memory two /\ holds two 1 None /\ holds two 0 (Some square) /\ copy_of square = Ok square /\
  exists s', step (B := Z) copy_of (OpAssign 1 0) two_memory = RRet s' Done /\ w_heap s' = [Some square; Some square].
Proof. exact (conj two_reached (conj eq_refl (conj eq_refl (conj eq_refl two_assigned)))). Qed.
