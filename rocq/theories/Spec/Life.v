(** Specification vocabulary: which programs use bodies, fields and clones of fields only while they are alive. *)
From Coq Require Import ZArith List Bool.
From Verif Require Import Model.Outcome Model.Life.
Import ListNotations.

(** What a client can do. Bodies and clones are named by their order of creation. *)
Inductive life_op : Type :=
| LNew
| LRead (a n k : nat)
| LEval (a k : nat) (seen : list nat)
| LClone (a k : nat)
| LEvalClone (c : nat) (seen : list nat)
| LDelete (a : nat)
| LDeleteClone (c : nat)
| LCopy (a : nat)
| LAssign (a b : nat).

(** The code's operations, [virt] as in the model; a program stops at the first undefined behaviour. *)
Definition life_step (virt : bool) (o : life_op) (s : life) : outcome life :=
  match o with
  | LNew => l_new s
  | LRead a n k => l_read a n k s
  | LEval a k seen => l_eval a k seen s
  | LClone a k => l_clone a k s
  | LEvalClone c seen => l_eval_clone c seen s
  | LDelete a => l_delete virt a s
  | LDeleteClone c => l_delete_clone c s
  | LCopy a => l_copy a s
  | LAssign a b => l_assign a b s
  end.
Fixpoint life_run (virt : bool) (os : list life_op) (s : life) : outcome life :=
  match os with
  | [] => Ok s
  | o :: os' => let* s' := life_step virt o s in life_run virt os' s'
  end.

(** ** Read off the program's text alone *)

Definition count {X : Type} (f : X -> nat) (l : list X) : nat := list_sum (map f l).

(** How many bodies and clones were made; the interpolators and fields read into body [a]. *)
Definition bodies (os : list life_op) : nat := count (fun o => match o with LNew | LCopy _ => 1 | _ => 0 end) os.
Definition clones (os : list life_op) : nat := count (fun o => match o with LClone _ _ => 1 | _ => 0 end) os.
Definition elements (a : nat) (os : list life_op) : nat := count (fun o => match o with LRead b n _ => if Nat.eqb a b then n else 0 | _ => 0 end) os.
Definition fields (a : nat) (os : list life_op) : nat := count (fun o => match o with LRead b _ k => if Nat.eqb a b then k else 0 | _ => 0 end) os.
(** The bodies the clones were made from, in order. *)
Definition origins (os : list life_op) : list nat := flat_map (fun o => match o with LClone a _ => [a] | _ => [] end) os.

Definition live_body (os : list life_op) (a : nat) : Prop := a < bodies os /\ ~ In (LDelete a) os.
Definition live_clone (os : list life_op) (c : nat) : Prop := c < clones os /\ ~ In (LDeleteClone c) os.

(** [o], after the operations [os], is applied to living objects, copies no body, and asks existing interpolators only. *)
Definition careful (os : list life_op) (o : life_op) : Prop :=
  match o with
  | LNew => True
  | LRead a _ _ => live_body os a
  | LEval a k seen => live_body os a /\ k < fields a os /\ Forall (fun i => i < elements a os) seen
  | LClone a k => live_body os a /\ k < fields a os
  | LEvalClone c seen => live_clone os c /\ exists a, nth_error (origins os) c = Some a /\ live_body os a /\ Forall (fun i => i < elements a os) seen
  | LDelete a => live_body os a
  | LDeleteClone c => live_clone os c
  | LCopy _ => False
  | LAssign _ _ => False
  end.
Inductive proper : list life_op -> Prop :=
| ProperNil : proper []
| ProperSnoc : forall os o, proper os -> careful os o -> proper (os ++ [o]).

(** Nothing is left in memory. *)
Definition all_freed (s : life) : Prop :=
  Forall (eq None) (lf_body s) /\ Forall (eq None) (lf_interp s) /\ Forall (eq None) (lf_bfunc s) /\ Forall (eq None) (lf_clone s).

(** No body with interpolators is ever deleted. *)
Definition no_mesh_deleted (os : list life_op) : Prop :=
  forall os1 a os2, os = os1 ++ LDelete a :: os2 -> elements a os1 = 0.
