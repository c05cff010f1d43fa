(** Outcomes of C++ calls.

    Infrastructure of the model; it has no counterpart in /repo.  A call returns, throws
    (the state at the throw is kept, since the caller may catch the exception and carry on),
    terminates the process with [exit], or is undefined behaviour.  [NoFuel] is the model's own
    "loop bound exhausted" value; no theorem counts it as a normal return. *)
From Coq Require Import ZArith List Bool.
Import ListNotations.
Local Open Scope Z_scope.

(** Exceptions the library throws: std::domain_error (Bin.hh 186, PPieceWiseFuncBase.hh 56),
    std::runtime_error (PSimpleBase.hh 64-68, PFuncBase.hh 142-146), std::invalid_argument (Body.hh 132),
    and std::length_error, thrown by std::vector::resize for an impossible size. *)
Inductive exn : Type :=
| DomainError
| RuntimeError
| InvalidArgument
| LengthError.

(** Why a behaviour is undefined (model infrastructure; names the C++ rule that is broken). *)
Inductive ub_reason : Type :=
| UBOutOfBounds      (* subscript outside a vector *)
| UBOverflow         (* signed integer overflow *)
| UBDivZero          (* integer division by zero *)
| UBBadConversion    (* floating value not representable in the target integer type *)
| UBNull             (* null pointer dereferenced *)
| UBDangling         (* object used after it was freed *)
| UBDoubleFree       (* object freed twice *)
| UBUninit           (* indeterminate value read *)
| UBNoReturn         (* flowing off the end of a value-returning function *)
| UBBadDelete.       (* object deleted through a base class without a virtual destructor, or not made by new *)

(** Result of a call that has no object state of its own. *)
Inductive outcome (A : Type) : Type :=
| Ok (a : A)
| Throw (e : exn)
| Exit
| UB (r : ub_reason)
| NoFuel.
Arguments Ok {A} a.
Arguments Throw {A} e.
Arguments Exit {A}.
Arguments UB {A} r.
Arguments NoFuel {A}.

(** Sequencing of C++ statements. *)
Definition obind {A B : Type} (m : outcome A) (k : A -> outcome B) : outcome B :=
  match m with
  | Ok a => k a
  | Throw e => Throw e
  | Exit => Exit
  | UB r => UB r
  | NoFuel => NoFuel
  end.

Notation "'let*' x := m 'in' k" := (obind m (fun x => k))
  (at level 200, x name, m at level 100, k at level 200, right associativity).

(** Result of a method call on an object with state [S]. *)
Inductive res (S A : Type) : Type :=
| RRet (s : S) (a : A)
| RThrow (s : S) (e : exn)
| RExit
| RUB (r : ub_reason)
| RNoFuel.
Arguments RRet {S A} s a.
Arguments RThrow {S A} s e.
Arguments RExit {S A}.
Arguments RUB {S A} r.
Arguments RNoFuel {S A}.

(** A method: a state transformer with an outcome. *)
Definition M (S A : Type) : Type := S -> res S A.

(** [return a;] *)
Definition mret {S A : Type} (a : A) : M S A := fun s => RRet s a.

(** Statement sequencing inside a method. *)
Definition mbind {S A B : Type} (m : M S A) (k : A -> M S B) : M S B :=
  fun s => match m s with
           | RRet s' a => k a s'
           | RThrow s' e => RThrow s' e
           | RExit => RExit
           | RUB r => RUB r
           | RNoFuel => RNoFuel
           end.

(** A state-less computation used inside a method. *)
Definition mlift {S A : Type} (o : outcome A) : M S A :=
  fun s => match o with
           | Ok a => RRet s a
           | Throw e => RThrow s e
           | Exit => RExit
           | UB r => RUB r
           | NoFuel => RNoFuel
           end.

(** Read the object's data members. *)
Definition mget {S : Type} : M S S := fun s => RRet s s.
(** Overwrite the object's data members. *)
Definition mput {S : Type} (s' : S) : M S unit := fun _ => RRet s' tt.
(** Update the object's data members. *)
Definition mmod {S : Type} (f : S -> S) : M S unit := fun s => RRet (f s) tt.

Notation "'do*' x := m 'in' k" := (mbind m (fun x => k))
  (at level 200, x name, m at level 100, k at level 200, right associativity).
Notation "m ;;; k" := (mbind m (fun _ => k)) (at level 199, right associativity).

(** What the caller sees, forgetting the object's state. *)
Definition res_outcome {S A : Type} (r : res S A) : outcome A :=
  match r with
  | RRet _ a => Ok a
  | RThrow _ e => Throw e
  | RExit => Exit
  | RUB u => UB u
  | RNoFuel => NoFuel
  end.

(** ** std::vector subscripts: [v\[i\]] is undefined outside the vector. *)
Definition vget {A : Type} (l : list A) (i : Z) : outcome A :=
  if (0 <=? i) then
    match nth_error l (Z.to_nat i) with
    | Some a => Ok a
    | None => UB UBOutOfBounds
    end
  else UB UBOutOfBounds.

(** Replace element [n] of a list (no effect outside). *)
Fixpoint lset {A : Type} (l : list A) (n : nat) (a : A) : list A :=
  match l, n with
  | [], _ => []
  | _ :: l', O => a :: l'
  | x :: l', S n' => x :: lset l' n' a
  end.

(** [v\[i\] = a] *)
Definition vset {A : Type} (l : list A) (i : Z) (a : A) : outcome (list A) :=
  if (0 <=? i) && (i <? Z.of_nat (length l)) then Ok (lset l (Z.to_nat i) a)
  else UB UBOutOfBounds.

(** [v.resize(n)] for a non-negative [n]: keep the prefix, value-initialise new elements. *)
Definition vresize {A : Type} (d : A) (l : list A) (n : nat) : list A :=
  firstn n l ++ repeat d (n - length l).

(** ** int arithmetic (32-bit two's complement; overflow is undefined). *)
Definition INT_MAX : Z := 2147483647.
Definition INT_MIN : Z := -2147483648.
Definition in_int (z : Z) : bool := (INT_MIN <=? z) && (z <=? INT_MAX).
(** Result of an int operation whose mathematical value is [z]. *)
Definition cint (z : Z) : outcome Z := if in_int z then Ok z else UB UBOverflow.

(** [foldM]: a counted loop over the elements of a list. *)
Fixpoint ofold {A B : Type} (f : B -> A -> outcome B) (l : list A) (b : B) : outcome B :=
  match l with
  | [] => Ok b
  | a :: l' => let* b' := f b a in ofold f l' b'
  end.

(** A counted loop over the elements of a list inside a method. *)
Fixpoint mfor {S A : Type} (l : list A) (f : A -> M S unit) : M S unit :=
  match l with
  | [] => mret tt
  | a :: l' => f a ;;; mfor l' f
  end.
