(** Model of Bin::max_indices (include/IntegrationTools/datastruc/Bin.hh 191-221), which nothing in the repository calls. *)
From Coq Require Import ZArith List Bool.
From Verif Require Import Model.Outcome Model.Num Model.PNDArray Model.Bin.
Import ListNotations.
Local Open Scope Z_scope.

Section BinMax.
Context {O : NumOps} {T : Type}.

(** Bin.hh 195-220: [n] iterations remain. On the throw at 204 the elements of [term] already written keep their new values. *)
Fixpoint bin_max_loop (n : nat) (coord mn mx inc : list (num O)) (term : list Z) : res (list Z) unit :=
  match n with
  | 0%nat => RRet term tt
  | S n' =>
      match coord, mn, mx with
      | c :: coord', a :: mn', b :: mx' =>
          if nltb O c a || nltb O b c then RThrow term DomainError        (* 203-204 *)
          else
            match inc, term with
            | h :: inc', _ :: term' =>
                match bin_max_index1 O c a b h with                       (* 209-218 *)
                | Ok k =>
                    match bin_max_loop n' coord' mn' mx' inc' term' with
                    | RRet t u => RRet (k :: t) u
                    | RThrow t e => RThrow (k :: t) e
                    | RExit => RExit
                    | RUB r => RUB r
                    | RNoFuel => RNoFuel
                    end
                | Throw e => RThrow term e
                | Exit => RExit
                | UB r => RUB r
                | NoFuel => RNoFuel
                end
            | _, _ => RUB UBOutOfBounds
            end
      | _, _, _ => RUB UBOutOfBounds
      end
  end.

(** Bin.hh 191-221: max_indices(coord, term); the loop bound is _item.order(). *)
Definition bin_max_indices (b : bin O T) (coord : list (num O)) (term : list Z) : res (list Z) unit :=
  bin_max_loop (Z.to_nat (nd_order (bin_item b))) coord (bin_min b) (bin_max b) (bin_incr b) term.
End BinMax.
