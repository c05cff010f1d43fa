(** Specification vocabulary: programs with hard-coded function objects, and what they would do if objects were plain values. *)
From Coq Require Import ZArith List Bool.
From Verif Require Import Model.Outcome Model.PSimple Model.Wrapper Model.FuncObj Model.Parts.
From Verif Require Import Spec.Funcs.
Import ListNotations.

(** What a client can do with objects of one class, which are named by their order of creation: default construction, copy construction (or
    clone), assignment, destruction, evaluation of one part or of the gradient or Hessian, a stored result, a part. *)
Inductive parts_op (V : Type) : Type :=
| PNew
| PCopy (x : nat)
| PAssign (x y : nat)
| PDestroy (x : nat)
| PCall (x : nat) (q : quantity) (var : V)
| PEvalGrad (x : nat) (var : V)
| PEvalHess (x : nat) (var : V)
| PGet (x : nat) (q : quantity)
| PPart (x : nat) (q : quantity).
Arguments PNew {V}.
Arguments PCopy {V}.
Arguments PAssign {V}.
Arguments PDestroy {V}.
Arguments PCall {V}.
Arguments PEvalGrad {V}.
Arguments PEvalHess {V}.
Arguments PGet {V}.
Arguments PPart {V}.

(** What the client sees of each: nothing, a number, a part, or an exception that it catches. *)
Inductive parts_answer (V A : Type) : Type :=
| Done
| Number (a : A)
| Part (s : simple V A)
| Caught (e : exn).
Arguments Done {V A}.
Arguments Number {V A}.
Arguments Part {V A}.
Arguments Caught {V A}.

Section Programs.
Context {V A : Type}.

(** One step of a program whose memory is [S]: an exception leaves the memory it was thrown in. *)
Definition answer {S B : Type} (f : B -> parts_answer V A) (r : res S B) : outcome (S * parts_answer V A) :=
  match r with
  | RRet s b => Ok (s, f b)
  | RThrow s e => Ok (s, Caught e)
  | RExit => Exit
  | RUB u => UB u
  | RNoFuel => NoFuel
  end.

Fixpoint run_ops {S : Type} (step : parts_op V -> S -> outcome (S * parts_answer V A)) (os : list (parts_op V)) (s : S) :
  outcome (S * list (parts_answer V A)) :=
  match os with
  | [] => Ok (s, [])
  | o :: os' =>
      let* sa := step o s in
      let* sr := run_ops step os' (fst sa) in
      Ok (fst sr, snd sa :: snd sr)
  end.

(** The code. *)
Definition parts_step (c : pclass V A) (o : parts_op V) (m : pmem V A) : outcome (pmem V A * parts_answer V A) :=
  match o with
  | PNew => answer (fun _ => Done) (pv_new c m)
  | PCopy x => answer (fun _ => Done) (pv_copy c x m)
  | PAssign x y => answer (fun _ => Done) (pv_assign c x y m)
  | PDestroy x => answer (fun _ => Done) (pv_destroy c x m)
  | PCall x QVal v => answer Number (pv_call x v m)
  | PCall x (QGrad i) v => answer Number (pv_call_grad x v i m)
  | PCall x (QHess i j) v => answer Number (pv_call_hess x v i j m)
  | PEvalGrad x v => answer (fun _ => Done) (pv_eval_grad c x v m)
  | PEvalHess x v => answer (fun _ => Done) (pv_eval_hess c x v m)
  | PGet x QVal => answer Number (pv_get x m)
  | PGet x (QGrad i) => answer Number (pv_get_grad x i m)
  | PGet x (QHess i j) => answer Number (pv_get_hess x i j m)
  | PPart x QVal => answer Part (pv_part x m)
  | PPart x (QGrad i) => answer Part (pv_part_grad x i m)
  | PPart x (QHess i j) => answer Part (pv_part_hess x i j m)
  end.
Definition no_memory : pmem V A := mkPmem [] [] [] [].
Definition parts_run (c : pclass V A) (os : list (parts_op V)) : outcome (pmem V A * list (parts_answer V A)) :=
  run_ops (parts_step c) os no_memory.

(** ** Objects as values *)

(** A method of the value of variable [x], which is then replaced. *)
Definition on_var {B : Type} (x : nat) (f : M (fobj V A) B) : M (heap (fobj V A)) B :=
  fun vs =>
    match h_read vs x with
    | Ok v =>
        match f v with
        | RRet v' b => RRet (lset vs x (Some v')) b
        | RThrow v' e => RThrow (lset vs x (Some v')) e
        | RExit => RExit
        | RUB u => RUB u
        | RNoFuel => RNoFuel
        end
    | Throw e => RThrow vs e
    | Exit => RExit
    | UB u => RUB u
    | NoFuel => RNoFuel
    end.

(** The part of a value that computes [q]. *)
Definition part_of (v : fobj V A) (q : quantity) : outcome (simple V A) :=
  match q with
  | QVal => Ok (fo_val v)
  | QGrad i => vget (fo_grad v) i
  | QHess i j => let* row := vget (fo_hess v) i in vget row j
  end.

(** A value is made, copied ([keeps]: with its stored results; otherwise as new), overwritten by another, forgotten; evaluated as in FuncObj.v. *)
Definition values_step (c : pclass V A) (keeps : bool) (o : parts_op V) (vs : heap (fobj V A)) : outcome (heap (fobj V A) * parts_answer V A) :=
  match o with
  | PNew => Ok (h_new (pc_parts c) vs, Done)
  | PCopy x => let* v := h_read vs x in Ok (h_new (if keeps then v else pc_parts c) vs, Done)
  | PAssign x y => let* _ := h_read vs x in let* v := h_read vs y in Ok (lset vs x (Some v), Done)
  | PDestroy x => let* _ := h_read vs x in Ok (lset vs x None, Done)
  | PCall x QVal v => answer Number (on_var x (fo_call v) vs)
  | PCall x (QGrad i) v => answer Number (on_var x (fo_call_grad v i) vs)
  | PCall x (QHess i j) v => answer Number (on_var x (fo_call_hess v i j) vs)
  | PEvalGrad x v => answer (fun _ => Done) (on_var x (fo_eval_grads (pc_eval_grad c) v) vs)
  | PEvalHess x v => answer (fun _ => Done) (on_var x (fo_eval_hesses (pc_eval_hess c) v) vs)
  | PGet x QVal => let* v := h_read vs x in let* a := fo_get v in Ok (vs, Number a)
  | PGet x (QGrad i) => let* v := h_read vs x in let* a := fo_get_grad v i in Ok (vs, Number a)
  | PGet x (QHess i j) => let* v := h_read vs x in let* a := fo_get_hess v i j in Ok (vs, Number a)
  | PPart x q => let* v := h_read vs x in let* s := part_of v q in Ok (vs, Part s)
  end.
Definition values_run (c : pclass V A) (keeps : bool) (os : list (parts_op V)) : outcome (heap (fobj V A) * list (parts_answer V A)) :=
  run_ops (values_step c keeps) os [].

(** ** Counting *)

(** The objects still alive in a memory. *)
Definition alive {T : Type} (h : heap T) : nat := length (filter (fun x => match x with Some _ => true | None => false end) h).

(** Everything held in [m] belongs to [k] objects with [n] derivatives each: per object, the parts, the pointer arrays and the table of rows. *)
Definition holds_objects (n k : nat) (m : pmem V A) : Prop :=
  alive (pm_part m) = k * (1 + n + n * n) /\ alive (pm_row m) = k * (1 + n) /\ alive (pm_tab m) = k /\ alive (pm_obj m) = k.

(** A class for functions of [n] variables: n first and n times n second derivatives, none evaluated when made. *)
Definition class_of_arity (c : pclass V A) (n : nat) : Prop :=
  length (fo_grad (pc_parts c)) = n /\ length (fo_hess (pc_parts c)) = n /\ Forall (fun row => length row = n) (fo_hess (pc_parts c)) /\
  sp_val (fo_val (pc_parts c)) = None /\ Forall (fun s => sp_val s = None) (fo_grad (pc_parts c)) /\
  Forall (Forall (fun s => sp_val s = None)) (fo_hess (pc_parts c)).

(** The assignments a class can stand: all, those of an object to itself, or none. *)
Definition allowed (k : copying) (o : parts_op V) : Prop :=
  match o, k with
  | PAssign x y, Fresh => x = y
  | PAssign _ _, Sharing => False
  | _, _ => True
  end.
Definition keeps (k : copying) : bool := match k with Keeping => true | _ => false end.

(** What is stored for [q] in a new object after [o], and what [q]'s part of [v] computes at [var]. *)
Definition after_new (c : pclass V A) (o : parts_op V) (q : quantity) : outcome (parts_answer V A) :=
  let* r := parts_run c [PNew; o; PGet 0 q] in Ok (last (snd r) Done).
Definition computed (v : fobj V A) (q : quantity) (var : V) : outcome (parts_answer V A) :=
  let* s := part_of v q in let* a := sp_eval s var in Ok (Number a).

End Programs.
