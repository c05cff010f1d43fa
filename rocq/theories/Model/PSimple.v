(** Model of include/IntegrationTools/pfunction/PSimpleBase.hh. *)
From Coq Require Import ZArith List String.
From Verif Require Import Model.Outcome.
Import ListNotations.
Local Open Scope Z_scope.

(** PSimpleBase.hh 20-24: _name and _val, together with the virtual function eval of the dynamic class (64).
    [sp_val] is [None] while _val is indeterminate (a fundamental OutType that was never assigned). *)
Record simple (V A : Type) : Type := mkSimple {
  sp_name : string;
  sp_eval : V -> outcome A;
  sp_val : option A
}.
Arguments mkSimple {V A}.
Arguments sp_name {V A}.
Arguments sp_eval {V A}.
Arguments sp_val {V A}.

(** Read of a data member that may be indeterminate. *)
Definition read_member {A : Type} (x : option A) : outcome A :=
  match x with
  | Some a => Ok a
  | None => UB UBUninit
  end.

(** PSimpleBase.hh 30: operator()(var), [return _val = eval(var)]. *)
Definition sp_call {V A : Type} (var : V) : M (simple V A) A :=
  do* s := mget in
  do* a := mlift (sp_eval s var) in
  mput (mkSimple (sp_name s) (sp_eval s) (Some a)) ;;;
  mret a.

(** PSimpleBase.hh 31: operator()(), [return _val]. *)
Definition sp_get {V A : Type} (s : simple V A) : outcome A := read_member (sp_val s).

(** PSimpleBase.hh 64 and 66-70: the base class's own eval throws runtime_error. *)
Definition base_eval {V A : Type} (var : V) : outcome A := Throw RuntimeError.

(** A method call on element [i] of an array of objects (a pointer array indexed without check). *)
Definition on_elem {S A : Type} (i : Z) (m : M S A) : M (list S) A :=
  fun l =>
    match vget l i with
    | Ok s =>
        match m s with
        | RRet s' a => RRet (lset l (Z.to_nat i) s') a
        | RThrow s' e => RThrow (lset l (Z.to_nat i) s') e
        | RExit => RExit
        | RUB r => RUB r
        | RNoFuel => RNoFuel
        end
    | Throw e => RThrow l e
    | Exit => RExit
    | UB r => RUB r
    | NoFuel => RNoFuel
    end.
