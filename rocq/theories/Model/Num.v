(** Floating-point arithmetic as a parameter of the model.

    Infrastructure: the C++ type [double] is represented by any record [NumOps]. No law is
    assumed about the operations here; theorems say for which instance they hold. *)
From Coq Require Import ZArith Bool.
From Verif Require Import Model.Outcome.
Local Open Scope Z_scope.

(** The operations on [double] used by the library. [nfloor x] is std::floor as an integer, [None]
    for NaN and infinities. *)
Record NumOps : Type := mkNum {
  num : Type;
  nofZ : Z -> num;
  nadd : num -> num -> num;
  nsub : num -> num -> num;
  nmul : num -> num -> num;
  ndiv : num -> num -> num;
  nopp : num -> num;
  nltb : num -> num -> bool;
  nleb : num -> num -> bool;
  neqb : num -> num -> bool;
  nfloor : num -> option Z
}.

(** [int k = std::floor(x)]: undefined when the value is not representable in int. *)
Definition floor_to_int (O : NumOps) (x : num O) : outcome Z :=
  match nfloor O x with
  | Some z => if in_int z then Ok z else UB UBBadConversion
  | None => UB UBBadConversion
  end.
