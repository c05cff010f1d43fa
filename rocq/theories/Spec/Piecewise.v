(** Specification vocabulary for piecewise functions. *)
From Coq Require Import ZArith List Bool String Ascii.
From Verif Require Import Model.Outcome Model.PSimple Model.FuncObj Model.Piecewise Spec.Funcs.
Import ListNotations.

Section Ask.
Context {V A T : Type} (K : fclass V A T).

(** Evaluating a quantity, reading the stored result of a quantity, and the simple function of a quantity. *)
Definition ask (q : quantity) (v : V) : M T A :=
  match q with QVal => k_call K v | QGrad i => k_call_grad K v i | QHess i j => k_call_hess K v i j end.
Definition told (t : T) (q : quantity) : outcome A :=
  match q with QVal => k_get K t | QGrad i => k_get_grad K t i | QHess i j => k_get_hess K t i j end.
Definition ask_simple (q : quantity) (t : T) : outcome (simple V A) :=
  match q with QVal => k_simple K t | QGrad i => k_grad_simple K t i | QHess i j => k_hess_simple K t i j end.

(** A run has outcome [x], and leaves an object with property [P]. *)
Definition gives (r : res T A) (x : outcome A) (P : T -> Prop) : Prop :=
  match r with
  | RRet t a => x = Ok a /\ P t
  | RThrow t e => x = Throw e /\ P t
  | RExit => x = Exit
  | RUB u => x = UB u
  | RNoFuel => x = NoFuel
  end.

(** The objects related by [inv] to a family of functions compute that family, whatever was computed before. *)
Definition computes (inv : T -> family V A -> Prop) : Prop :=
  forall t F q f v, inv t F -> F q = Some f -> gives (ask q v t) (f v) (fun t' => inv t' F).

(** Their simple functions compute the same. *)
Definition simple_forms (inv : T -> family V A -> Prop) : Prop :=
  forall t F q f, inv t F -> F q = Some f -> exists s, ask_simple q t = Ok s /\ forall v, sp_eval s v = f v.

(** They store the last result of each quantity. *)
Definition stores (inv : T -> family V A -> Prop) : Prop :=
  forall t F q f v, inv t F -> F q = Some f ->
    match ask q v t with
    | RRet t' a => told t' q = Ok a /\ forall q', F q' <> None -> q' <> q -> told t' q' = told t q'
    | RThrow t' _ => forall q', F q' <> None -> told t' q' = told t q'
    | _ => True
    end.

(** A client's history on one object: evaluations that return, or throw and are caught. *)
Inductive asked : T -> list (quantity * V) -> T -> Prop :=
| AskNone : forall t, asked t [] t
| AskStep : forall t h t1 q v t2, asked t h t1 ->
    ((exists a, ask q v t1 = RRet t2 a) \/ (exists e, ask q v t1 = RThrow t2 e)) -> asked t (h ++ [(q, v)]) t2.

(** [m] is what the object has in store. *)
Definition in_store (t : T) (F : family V A) (m : memory A) : Prop := forall q, F q <> None -> told t q = read_member (m q).
End Ask.

Section Pieces.
Context {V A : Type}.

(** A list of cases: the conditions under which a case applies, and the functions it stands for. *)
Definition cases : Type := list (list (V -> outcome bool) * family V A).

Definition holds (cs : list (V -> outcome bool)) (v : V) : Prop := Forall (fun c => c v = Ok true) cs.
(** Some condition is false; those before it hold. *)
Definition fails (cs : list (V -> outcome bool)) (v : V) : Prop :=
  exists cs1 c cs2, cs = cs1 ++ c :: cs2 /\ holds cs1 v /\ c v = Ok false.

(** [c'] is the condition [c] with [b], its value at [v], in store. *)
Definition condition_after (v : V) (b : bool) (c c' : simple V bool) : Prop :=
  sp_eval c v = Ok b /\ sp_name c' = sp_name c /\ sp_eval c' = sp_eval c /\ sp_get c' = Ok b.

(** Case number [k] is the first that applies at [v]. *)
Definition chosen (l : cases) (v : V) (k : nat) : Prop :=
  (exists d, nth_error l k = Some d /\ holds (fst d) v) /\ forall i d, i < k -> nth_error l i = Some d -> fails (fst d) v.
Definition unmatched (l : cases) (v : V) : Prop := Forall (fun d => fails (fst d) v) l.

(** Every condition always yields a truth value. *)
Definition decisive (l : cases) : Prop := forall d c v, In d l -> In c (fst d) -> exists b, c v = Ok b.

(** The pieces of an object are these cases. *)
Definition described {T : Type} (inv : T -> family V A -> Prop) (o : pw V T) (l : cases) : Prop :=
  Forall2 (fun p d => map sp_eval (pc_cond p) = fst d /\ inv (pc_expr p) (snd d)) (pw_piece o) l.

(** The family defined by cases. *)
Definition by_cases (l : cases) (F : family V A) : Prop := forall q f, F q = Some f ->
  (forall d, In d l -> snd d q <> None) /\
  (forall v k d g, chosen l v k -> nth_error l k = Some d -> snd d q = Some g -> f v = g v) /\
  (forall v, unmatched l v -> f v = Throw DomainError).

(** What each piece computed last, and which piece was used last, after a history. *)
Inductive recorded (l : cases) (c0 : option nat) (m0 : nat -> memory A) : list (quantity * V) -> option nat -> (nat -> memory A) -> Prop :=
| RcNone : recorded l c0 m0 [] c0 m0
| RcHit : forall h c m q v k d, recorded l c0 m0 h c m -> chosen l v k -> nth_error l k = Some d ->
    recorded l c0 m0 (h ++ [(q, v)]) (Some k) (fun i => if Nat.eq_dec i k then recall (snd d) (m k) (q, v) else m i)
| RcMiss : forall h c m q v, recorded l c0 m0 h c m -> unmatched l v -> recorded l c0 m0 (h ++ [(q, v)]) c m.
End Pieces.
Arguments cases V A : clear implicits.

(** ** Printed forms *)

(** Texts listed one after the other, [first] before the first, [last] before the last of several, [mid] before the others. *)
Definition listed (first last mid : string) (l : list string) (s : string) : Prop :=
  match l with
  | [] => s = ""%string
  | [x] => s = (first ++ x)%string
  | x :: r => exists m z, r = m ++ [z] /\ s = (first ++ x ++ String.concat "" (map (fun y => mid ++ y)%string m) ++ last ++ z)%string
  end.

Fixpoint occurrences (w s : string) : nat :=
  (if prefix w s then 1 else 0) + match s with EmptyString => 0 | String _ s' => occurrences w s' end.
