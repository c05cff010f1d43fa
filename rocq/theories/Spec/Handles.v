(** Specification vocabulary: C handles as values. *)
From Coq Require Import ZArith List.
From Verif Require Import Model.Outcome Model.Wrapper Model.CApi Spec.Ownership.
Import ListNotations.

Section Handles.
Context {T B : Type}.

(** What a C program can do without copying handles. *)
Inductive cop : Type :=
| CNew (k : nat) (make : outcome T)
| CNewThen (k : nat) (x : T) (init : M T unit)
| CDelete (k : nat)
| CCall (k : nat) (m : M T B).

Definition cdo (o : cop) : M (cstate T) (reply B) :=
  match o with
  | CNew k make => c_new k make ;;; mret Done
  | CNewThen k x init => c_new_then k x init ;;; mret Done
  | CDelete k => c_delete k ;;; mret Done
  | CCall k m => do* b := c_call k m in mret (Result b)
  end.

(** Calls one after the other; exceptions are reported and the program goes on. *)
Fixpoint crun (os : list cop) (s : cstate T) : outcome (list (reply B) * cstate T) :=
  match os with
  | [] => Ok ([], s)
  | o :: os' =>
      let continue := fun r s1 => let* p := crun os' s1 in Ok (r :: fst p, snd p) in
      match cdo o s with
      | RRet s1 r => continue r s1
      | RThrow s1 e => continue (Raised e) s1
      | RExit => Exit
      | RUB u => UB u
      | RNoFuel => NoFuel
      end
  end.

(** Before the first call: [n] handles, all NULL. *)
Definition cstart (n : nat) : cstate T := mkC [] (repeat None n).

(** What each handle stands for - nothing, or an object of its own - and the number of objects that were lost because a new one was
    made into a handle still in use. *)
Record chandles : Type := mkH { ch : list (option T); lost : nat }.

Definition in_use (v : chandles) (k : nat) : nat := match nth_error (ch v) k with Some (Some _) => 1 | _ => 0 end.
Definition fill (v : chandles) (k : nat) (x : T) : chandles := mkH (lset (ch v) k (Some x)) (lost v + in_use v k).

(** The only restriction on calls is not to call through a NULL handle. *)
Inductive cstep : chandles -> cop -> reply B -> chandles -> Prop :=
| SNew : forall v k x, k < length (ch v) -> cstep v (CNew k (Ok x)) Done (fill v k x)
| SNewThrow : forall v k e, k < length (ch v) -> cstep v (CNew k (Throw e)) (Raised e) v
| SNewThen : forall v k x y init, k < length (ch v) -> init x = RRet y tt -> cstep v (CNewThen k x init) Done (fill v k y)
| SNewThenThrow : forall v k x y e init, k < length (ch v) -> init x = RThrow y e -> cstep v (CNewThen k x init) (Raised e) (fill v k y)
| SDelete : forall v k, k < length (ch v) -> cstep v (CDelete k) Done (mkH (lset (ch v) k None) (lost v))
| SCall : forall v k m x y b, nth_error (ch v) k = Some (Some x) -> m x = RRet y b ->
    cstep v (CCall k m) (Result b) (mkH (lset (ch v) k (Some y)) (lost v))
| SCallThrow : forall v k m x y e, nth_error (ch v) k = Some (Some x) -> m x = RThrow y e ->
    cstep v (CCall k m) (Raised e) (mkH (lset (ch v) k (Some y)) (lost v)).

Inductive csteps : chandles -> list cop -> list (reply B) -> chandles -> Prop :=
| SEnd : forall v, csteps v [] [] v
| SThen : forall v o r v1 os rs v2, cstep v o r v1 -> csteps v1 os rs v2 -> csteps v (o :: os) (r :: rs) v2.

(** Number of entries in use. *)
Fixpoint live {A : Type} (l : list (option A)) : nat :=
  match l with [] => 0 | Some _ :: l' => Datatypes.S (live l') | None :: l' => live l' end.

(** The objects in memory are those of the handles, each with its own, and the lost ones. *)
Record stands_for (s : cstate T) (v : chandles) : Prop := {
  sf_handles : forall k, match nth_error (c_handles s) k, nth_error (ch v) k with
                         | None, None | Some None, Some None => True
                         | Some (Some a), Some (Some x) => nth_error (c_heap s) a = Some (Some x)
                         | _, _ => False
                         end;
  sf_own : forall k k' a, nth_error (c_handles s) k = Some (Some a) -> nth_error (c_handles s) k' = Some (Some a) -> k = k';
  sf_count : live (c_heap s) = live (ch v) + lost v
}.
End Handles.
Arguments cop T B : clear implicits.
Arguments chandles T : clear implicits.
