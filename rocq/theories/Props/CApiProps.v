(** C46: handles and sizes in the C interface. *)
From Coq Require Import ZArith List.
From Verif Require Import Model.Outcome Model.PSimple Model.BasisSet Model.Wrapper Model.CApi Spec.Ownership Spec.Handles Proofs.WrapperP Proofs.CApiP.
Import ListNotations.

(** C46. Any sequence of *_new, *_delete and calls through handles that are not NULL, on handles that are not copied: no undefined
    behaviour, and every handle stands for its own object. *)
Theorem C46_handles_are_values : forall (T B : Type) n (os : list (cop T B)) rs v, csteps (mkH (repeat None n) 0) os rs v ->
  exists s, crun os (cstart n) = Ok (rs, s) /\ stands_for s v.
Proof. exact @handles_ok. Qed.
Print Assumptions C46_handles_are_values.

Example C46_case : csteps (mkH (repeat None 2) 0) cprog creplies (mkH [None; None] 1) /\
  nth_error creplies 3 = Some (Result 9%Z) /\ nth_error creplies 8 = Some (Result 25%Z).
Proof. exact (conj cprog_values (conj eq_refl eq_refl)). Qed.

(** C46. In every state so reached, *_delete frees the handle's object, if any, and nulls the handle; a second one changes nothing. *)
Theorem C46_delete_twice : forall (T B : Type) n (os : list (cop T B)) rs v s k,
  csteps (mkH (repeat None n) 0) os rs v -> crun os (cstart n) = Ok (rs, s) -> k < n ->
  exists s', c_delete k s = RRet s' tt /\ nth_error (c_handles s') k = Some None /\ live (c_heap s) = in_use v k + live (c_heap s') /\
    c_delete k s' = RRet s' tt.
Proof. exact @delete_twice. Qed.
Print Assumptions C46_delete_twice.

Example C46_case_delete : exists s, crun cprog (cstart 2) = Ok (creplies, s) /\ live (c_heap s) = 1.
Proof. exact cprog_memory. Qed.

(** C46. With every handle deleted, the objects left are those whose handle was filled again while in use. *)
Theorem C46_all_deleted : forall (T B : Type) n (os : list (cop T B)) rs v, csteps (mkH (repeat None n) 0) os rs v ->
  Forall (fun c => c = None) (ch v) -> exists s, crun os (cstart n) = Ok (rs, s) /\ live (c_heap s) = lost v.
Proof. exact @all_deleted. Qed.
Print Assumptions C46_all_deleted.

Example C46_case_all : csteps (mkH (repeat None 2) 0) cprog creplies (mkH [None; None] 1) /\
  Forall (fun c : option (simple Z Z) => c = None) (ch (mkH [None; None] 1)).
Proof. exact (conj cprog_values (Forall_cons _ eq_refl (Forall_cons _ eq_refl (Forall_nil _)))). Qed.

(** C46. A call through a NULL handle is undefined behaviour. *)
Theorem C46_call_null : forall (T B : Type) n (os : list (cop T B)) rs v s k (m : M T B),
  csteps (mkH (repeat None n) 0) os rs v -> crun os (cstart n) = Ok (rs, s) -> nth_error (ch v) k = Some None -> c_call k m s = RUB UBNull.
Proof. exact @call_null. Qed.
Print Assumptions C46_call_null.

Example C46_case_null : csteps (mkH (repeat None 2) 0) cprog creplies (mkH [None; None] 1) /\
  nth_error (ch (mkH (T := simple Z Z) [None; None] 1)) 0 = Some None.
Proof. exact (conj cprog_values eq_refl). Qed.

(** C46. A second delete through a copy of the handle frees the object twice. *)
Theorem C46_copied_handle_refuted :
  exists s, (c_new 0 (Ok square) ;;; c_alias 1 0) (cstart 2) = RRet s tt /\ (c_delete 0 ;;; c_delete 1) s = RUB UBDoubleFree.
Proof. exact alias_double. Qed.
Print Assumptions C46_copied_handle_refuted.

(** C46. A limit that fits in an int is reported. *)
Theorem C46_max_size_limit : forall (X A : Type) (b : bset X A) l, bs_limit b = Some l -> (0 <= l <= INT_MAX)%Z -> dd_max_size b = l.
Proof. exact @max_size_limit. Qed.
Print Assumptions C46_max_size_limit.

Example C46_case_limit : bs_limit limited = Some 30%Z /\ dd_max_size limited = 30%Z.
Proof. exact (conj eq_refl eq_refl). Qed.

(** C46. An unlimited basis set reports -1. *)
Theorem C46_max_size_unlimited : forall (X A : Type) (b : bset X A), bs_limit b = None -> dd_max_size b = (-1)%Z.
Proof. exact @max_size_none. Qed.
Print Assumptions C46_max_size_unlimited.

Example C46_case_unlimited : bs_limit unlimited = None /\ bs_max_size unlimited = 18446744073709551615%Z.
Proof. exact (conj eq_refl eq_refl). Qed.

(** C46. The size is reported as it is. *)
Theorem C46_size : forall (X A : Type) (b : bset X A), (Z.of_nat (List.length (bs_val b)) <= INT_MAX)%Z ->
  dd_size b = Z.of_nat (List.length (bs_val b)).
Proof. exact @size_through. Qed.
Print Assumptions C46_size.

Example C46_case_size : dd_size limited = 2%Z.
Proof. exact eq_refl. Qed.

(** C46. Resizing to a size within the limit, through the int parameter, gives a set of that size. *)
Theorem C46_resize : forall (X A : Type) (d : A) (b : bset X A) N, (0 <= N <= INT_MAX)%Z -> (forall l, bs_limit b = Some l -> (N <= l)%Z) ->
  exists b', dd_resize d N b = RRet b' tt /\ dd_size b' = N /\ bs_limit b' = bs_limit b.
Proof. exact @resize_through. Qed.
Print Assumptions C46_resize.

Example C46_case_resize : exists b', dd_resize 0%Z 30 limited = RRet b' tt /\ dd_size b' = 30%Z.
Proof. exact (ex_intro _ _ (conj eq_refl eq_refl)). Qed.

(** C46. A negative size becomes a huge one: a limited set ends the process, an unlimited one throws std::length_error. *)
Theorem C46_resize_negative : forall (X A : Type) (d : A) (b : bset X A) N, (INT_MIN <= N < 0)%Z ->
  match bs_limit b with Some l => (l <= INT_MAX)%Z -> dd_resize d N b = RExit | None => dd_resize d N b = RThrow b LengthError end.
Proof. exact @resize_negative. Qed.
Print Assumptions C46_resize_negative.

Example C46_case_negative : dd_resize 0%Z (-1) limited = RExit /\ dd_resize 0%Z (-1) unlimited = RThrow unlimited LengthError.
Proof. exact (conj eq_refl eq_refl). Qed.
