(** Specification vocabulary for basis sets: what a client may do, and what was computed last for each term. *)
From Coq Require Import ZArith List Bool String.
From Verif Require Import Model.Outcome Model.BasisSet.
Import ListNotations.
Local Open Scope Z_scope.

(** Value, gradient or Hessian of a term. *)
Inductive kind : Type := KVal | KGrad | KHess.
Definition kind_eq_dec (p q : kind) : {p = q} + {p <> q}.
Proof. decide equality. Defined.

Section Basis.
Context {X A : Type}.

(** The term functions: kind, term number, argument. *)
Definition terms : Type := kind -> Z -> X -> outcome A.
Definition terms_of (f df ddf : Z -> X -> outcome A) : terms :=
  fun k => match k with KVal => f | KGrad => df | KHess => ddf end.

(** A client's calls. *)
Inductive bcall : Type :=
| BOne (k : kind) (t : Z) (x : X)
| BAll (k : kind) (x : X)
| BResize (n : Z).

(** The method each of them is. *)
Definition bevaluate (k : kind) (t : Z) (x : X) : M (bset X A) A :=
  match k with KVal => bs_call t x | KGrad => bs_call_grad t x | KHess => bs_call_hess t x end.
Definition bevaluate_all (k : kind) (x : X) : M (bset X A) (list A) :=
  match k with KVal => bs_eval x | KGrad => bs_eval_grad x | KHess => bs_eval_hess x end.
Definition brun (d : A) (c : bcall) : M (bset X A) unit :=
  match c with
  | BOne k t x => bevaluate k t x ;;; mret tt
  | BAll k x => bevaluate_all k x ;;; mret tt
  | BResize n => bs_resize d n
  end.

(** The getters. *)
Definition bstored (b : bset X A) (k : kind) (t : Z) : outcome A :=
  match k with KVal => bs_get b t | KGrad => bs_get_grad b t | KHess => bs_get_hess b t end.
Definition pbstored (p : option (bset X A)) (k : kind) (t : Z) : outcome A :=
  match k with KVal => pb_get p t | KGrad => pb_get_grad p t | KHess => pb_get_hess p t end.

(** The last result of each term, [None] when there is none. *)
Definition bmemory : Type := kind -> Z -> option A.
Definition nothing : bmemory := fun _ _ => None.

(** All terms up to [t] return at [x]. *)
Definition returns_upto (F : terms) (k : kind) (x : X) (t : Z) : bool :=
  forallb (fun u => match F k (Z.of_nat u) x with Ok _ => true | _ => false end) (seq 0 (S (Z.to_nat t))).

(** Effect of a call on the last results of a set of [n] terms: one evaluation replaces one result (nothing if it throws);
    an evaluation of all terms replaces the results one after the other until a term throws; a resize forgets the terms
    that are dropped. *)
Definition brecall (F : terms) (n : Z) (m : bmemory) (c : bcall) : bmemory :=
  fun k' t' =>
    match c with
    | BOne k t x =>
        if kind_eq_dec k' k then
          if t' =? t then match F k t x with Ok a => Some a | _ => m k' t' end else m k' t'
        else m k' t'
    | BAll k x =>
        if kind_eq_dec k' k then
          if (0 <=? t') && (t' <? n) && returns_upto F k x t'
          then match F k t' x with Ok a => Some a | _ => m k' t' end
          else m k' t'
        else m k' t'
    | BResize n' => if (0 <=? t') && (t' <? n') then m k' t' else None
    end.

(** A client's history on one object, with the number of terms and the last results. Calls return or throw (and the
    exception is caught). *)
Inductive bhistory (d : A) (F : terms) : bset X A -> Z -> bmemory -> Prop :=
| BMake : forall name limit f df ddf n b,
    (forall k t x, F k t x = terms_of f df ddf k t x) -> 0 <= n ->
    bs_make d name limit f df ddf n = Ok b -> bhistory d F b n nothing
| BRet : forall b n m c b', bhistory d F b n m ->
    (forall n', c = BResize n' -> 0 <= n') ->
    brun d c b = RRet b' tt ->
    bhistory d F b' (match c with BResize n' => n' | _ => n end) (brecall F n m c)
| BThrow : forall b n m c b' e, bhistory d F b n m ->
    (forall n', c = BResize n' -> 0 <= n') ->
    brun d c b = RThrow b' e ->
    bhistory d F b' n (match c with BResize _ => m | _ => brecall F n m c end).

(** A basis set some client may have built. *)
Definition reachable_bset (d : A) (b : bset X A) : Prop := exists F n m, bhistory d F b n m.

End Basis.
Arguments terms : clear implicits.
Arguments bcall : clear implicits.
Arguments bmemory : clear implicits.
