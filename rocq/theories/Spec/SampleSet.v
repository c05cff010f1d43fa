(** Specification vocabulary: programs with basis sets of one generated class, and what they would do with plain families of functions. *)
From Coq Require Import ZArith String List Bool Reals.
From Coquelicot Require Import Coquelicot.
From Coq Require Import List.
From Verif Require Import Model.Outcome Model.Num Model.Samples Model.PSimple Model.Wrapper Model.BasisSet Model.PFlex Model.SampleSet.
From Verif Require Import Spec.Basis.
Import ListNotations.
Local Open Scope Z_scope.

(** What a client can do with sets, which are named by their order of creation. *)
Inductive set_op (X : Type) : Type :=
| SNew (n : Z)
| SCopy (x : nat)
| SAssign (x y : nat)
| SDestroy (x : nat)
| SResize (x : nat) (n : Z)
| SCall (x : nat) (k : kind) (term : Z) (var : X)
| SEval (x : nat) (k : kind) (var : X)
| SGet (x : nat) (k : kind) (term : Z)
| SSize (x : nat).
Arguments SNew {X}.
Arguments SCopy {X}.
Arguments SAssign {X}.
Arguments SDestroy {X}.
Arguments SResize {X}.
Arguments SCall {X}.
Arguments SEval {X}.
Arguments SGet {X}.
Arguments SSize {X}.

(** What the client sees of each: nothing, a number, the numbers of all terms, a size, or an exception that it catches. *)
Inductive set_answer (A : Type) : Type :=
| Quiet
| One (a : A)
| All (l : list A)
| Size (n : Z)
| Raised (e : exn).
Arguments Quiet {A}.
Arguments One {A}.
Arguments All {A}.
Arguments Size {A}.
Arguments Raised {A}.

(** Anything with the methods of a set. *)
Record methods (X A T : Type) : Type := mkMethods {
  me_new : Z -> outcome T;
  me_copy : T -> outcome T;
  me_assign : T -> M T unit;
  me_resize : Z -> M T unit;
  me_call : kind -> Z -> X -> M T A;
  me_eval : kind -> X -> M T (list A);
  me_get : T -> kind -> Z -> outcome A;
  me_size : T -> Z
}.
Arguments mkMethods {X A T}.
Arguments me_new {X A T}.
Arguments me_copy {X A T}.
Arguments me_assign {X A T}.
Arguments me_resize {X A T}.
Arguments me_call {X A T}.
Arguments me_eval {X A T}.
Arguments me_get {X A T}.
Arguments me_size {X A T}.

Section Programs.
Context {X A T : Type} (I : methods X A T).

(** A method of variable [x], which must be alive; an exception leaves the object as it was then. *)
Definition with_set {B : Type} (x : nat) (f : M T B) (g : B -> set_answer A) (vs : heap T) : outcome (heap T * set_answer A) :=
  let* v := h_read vs x in
  match f v with
  | RRet v' b => Ok (lset vs x (Some v'), g b)
  | RThrow v' e => Ok (lset vs x (Some v'), Raised e)
  | RExit => Exit
  | RUB r => UB r
  | RNoFuel => NoFuel
  end.
(** A constructor; there is no object after an exception. *)
Definition made (o : outcome T) (vs : heap T) : outcome (heap T * set_answer A) :=
  match o with
  | Ok v => Ok (h_new v vs, Quiet)
  | Throw e => Ok (vs, Raised e)
  | Exit => Exit
  | UB r => UB r
  | NoFuel => NoFuel
  end.

Definition set_step (o : set_op X) (vs : heap T) : outcome (heap T * set_answer A) :=
  match o with
  | SNew n => made (me_new I n) vs
  | SCopy x => let* v := h_read vs x in made (me_copy I v) vs
  | SAssign x y =>
      let* _ := h_read vs x in
      let* r := h_read vs y in
      if Nat.eqb x y then Ok (vs, Quiet) else with_set x (me_assign I r) (fun _ => Quiet) vs
  | SDestroy x => let* _ := h_read vs x in Ok (lset vs x None, Quiet)
  | SResize x n => with_set x (me_resize I n) (fun _ => Quiet) vs
  | SCall x k term var => with_set x (me_call I k term var) One vs
  | SEval x k var => with_set x (me_eval I k var) All vs
  | SGet x k term => let* v := h_read vs x in let* a := me_get I v k term in Ok (vs, One a)
  | SSize x => let* v := h_read vs x in Ok (vs, Size (me_size I v))
  end.

Fixpoint set_run (os : list (set_op X)) (vs : heap T) : outcome (heap T * list (set_answer A)) :=
  match os with
  | [] => Ok (vs, [])
  | o :: os' =>
      let* r := set_step o vs in
      let* r' := set_run os' (fst r) in
      Ok (fst r', snd r :: snd r')
  end.

(** All that a client sees of a program. *)
Definition seen (os : list (set_op X)) : outcome (list (set_answer A)) := let* r := set_run os [] in Ok (snd r).
End Programs.

Section Sets.
Context {X A : Type}.

(** The code's objects. *)
Definition object_methods (c : setclass X A) (d : A) : methods X A (mset X A) :=
  mkMethods (ms_new c d) (ms_copy c d) (ms_assign c d) (ms_resize c d)
    (fun k => match k with KVal => ms_call | KGrad => ms_call_grad | KHess => ms_call_hess end)
    (fun k => match k with KVal => ms_eval | KGrad => ms_eval_grad | KHess => ms_eval_hess end)
    (fun s k => match k with KVal => ms_get s | KGrad => ms_get_grad s | KHess => ms_get_hess s end) ms_size.

(** Sets as values (BasisSet.v): the functions [F] and the results; a copy is the same value, assignment replaces one value by another. *)
Definition family_methods (name : string) (limit : Z) (d : A) (F : terms X A) : methods X A (bset X A) :=
  mkMethods (bs_make d name (Some limit) (F KVal) (F KGrad) (F KHess)) (fun b => Ok b) mput (bs_resize d) bevaluate bevaluate_all bstored bs_size.

(** The class's functions are [F], and each can be evaluated anywhere. *)
Definition term_object (F : terms X A) (i : Z) (f : flex X A) : Prop :=
  exists s0 s1 s2, fl_val f = Some s0 /\ fl_grad f = [Some s1] /\ fl_hess f = [[Some s2]] /\
    (forall x, sp_eval s0 x = F KVal i x) /\ (forall x, sp_eval s1 x = F KGrad i x) /\ (forall x, sp_eval s2 x = F KHess i x).
Definition class_of_functions (c : setclass X A) (F : terms X A) : Prop :=
  0 <= sk_limit c < size_too_big /\
  (forall i, 0 <= i < sk_limit c -> exists f, sk_function c i = Ok (Some f) /\ term_object F i f) /\
  (forall k i x, 0 <= i < sk_limit c -> exists a, F k i x = Ok a) /\
  (forall k i x, ~ 0 <= i < sk_limit c -> F k i x = UB UBOutOfBounds).

(** Sizes are unsigned. *)
Definition unsigned_sizes (o : set_op X) : Prop :=
  match o with SNew n | SResize _ n => 0 <= n | _ => True end.
End Sets.

(** The three functions of each term of a generated set. *)
Definition sample_terms (O : NumOps) (pw : num O -> num O -> num O) (l : list sclass) (cases : list (string * string * string)) : terms (num O) (num O) :=
  terms_of (term_fun O pw l cases (fun c => fst (fst c))) (term_fun O pw l cases (fun c => snd (fst c))) (term_fun O pw l cases snd).

(** [a] is the value, first or second derivative of [f] at [x]. *)
Definition derived (k : kind) (f : R -> R) (x a : R) : Prop := is_derive_n f (match k with KVal => 0 | KGrad => 1 | KHess => 2 end) x a.
