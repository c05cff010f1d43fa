(** Specification vocabulary: wrappers as plain values. *)
From Coq Require Import ZArith List.
From Verif Require Import Model.Outcome Model.Wrapper.
Import ListNotations.

Section Ownership.
Context {T B : Type} (clone : T -> outcome T).

(** What a client can do. Wrappers and the client's own objects are named by their order of creation. *)
Inductive wop : Type :=
| OpNew
| OpCopy (j : nat)
| OpFrom (x : T)
| OpAssign (i j : nat)
| OpAssignObj (i : nat) (x : T)
| OpSetRaw (i k : nat)
| OpDestroy (i : nat)
| OpCall (i : nat) (m : M T B)
| OpRaw (x : T)
| OpRawDelete (k : nat).

(** What the client sees of an operation: a result (for a call), or an exception, which it catches. *)
Inductive reply : Type := Done | Result (b : B) | Raised (e : exn).

(** ** The code's operations *)
Definition step (o : wop) : M (wstate T) reply :=
  match o with
  | OpNew => w_new ;;; mret Done
  | OpCopy j => w_copy clone j ;;; mret Done
  | OpFrom x => w_from clone x ;;; mret Done
  | OpAssign i j => w_assign clone i j ;;; mret Done
  | OpAssignObj i x => w_assign_obj clone i x ;;; mret Done
  | OpSetRaw i k => do* s := mget in w_set i (nth_error (w_raw s) k) ;;; mret Done
  | OpDestroy i => w_destroy i ;;; mret Done
  | OpCall i m => do* b := w_call i m in mret (Result b)
  | OpRaw x => raw_new x ;;; mret Done
  | OpRawDelete k => raw_delete k ;;; mret Done
  end.

(** A program: operations one after the other. *)
Fixpoint run (os : list wop) (s : wstate T) : outcome (list reply * wstate T) :=
  match os with
  | [] => Ok ([], s)
  | o :: os' =>
      let continue := fun r s1 => let* p := run os' s1 in Ok (r :: fst p, snd p) in
      match step o s with
      | RRet s1 r => continue r s1
      | RThrow s1 e => continue (Raised e) s1
      | RExit => Exit
      | RUB u => UB u
      | RNoFuel => NoFuel
      end
  end.

Definition start : wstate T := mkW [] [] [].

(** ** Values instead of pointers
    A wrapper alive holds nothing or a value of its own; the client owns some objects. There is no sharing to speak of. *)
Record values : Type := mkV { v_wr : list (option (option T)); v_raw : list (option T) }.

Definition holds (v : values) (i : nat) (x : option T) : Prop := nth_error (v_wr v) i = Some (Some x).
Definition with_wr (v : values) (i : nat) (x : option (option T)) : values := mkV (lset (v_wr v) i x) (v_raw v).
Definition add_wr (v : values) (x : option T) : values := mkV (v_wr v ++ [Some x]) (v_raw v).

(** The permitted operations and their meaning: no assignment from the wrapper itself or from an empty one, no use of a destroyed
    wrapper or of a pointer the client does not own, no call on an empty wrapper; an assignment's clone() does not throw. *)
Inductive vstep : values -> wop -> reply -> values -> Prop :=
| VNew : forall v, vstep v OpNew Done (add_wr v None)
| VCopyEmpty : forall v j, holds v j None -> vstep v (OpCopy j) Done (add_wr v None)
| VCopy : forall v j x y, holds v j (Some x) -> clone x = Ok y -> vstep v (OpCopy j) Done (add_wr v (Some y))
| VCopyThrow : forall v j x e, holds v j (Some x) -> clone x = Throw e -> vstep v (OpCopy j) (Raised e) v
| VFrom : forall v x y, clone x = Ok y -> vstep v (OpFrom x) Done (add_wr v (Some y))
| VFromThrow : forall v x e, clone x = Throw e -> vstep v (OpFrom x) (Raised e) v
| VAssign : forall v i j x y o, i <> j -> holds v i o -> holds v j (Some x) -> clone x = Ok y ->
    vstep v (OpAssign i j) Done (with_wr v i (Some (Some y)))
| VAssignObj : forall v i x y o, holds v i o -> clone x = Ok y -> vstep v (OpAssignObj i x) Done (with_wr v i (Some (Some y)))
| VSet : forall v i k x o, holds v i o -> nth_error (v_raw v) k = Some (Some x) ->
    vstep v (OpSetRaw i k) Done (mkV (lset (v_wr v) i (Some (Some x))) (lset (v_raw v) k None))
| VDestroy : forall v i o, holds v i o -> vstep v (OpDestroy i) Done (with_wr v i None)
| VCall : forall v i m x y b, holds v i (Some x) -> m x = RRet y b -> vstep v (OpCall i m) (Result b) (with_wr v i (Some (Some y)))
| VCallThrow : forall v i m x y e, holds v i (Some x) -> m x = RThrow y e ->
    vstep v (OpCall i m) (Raised e) (with_wr v i (Some (Some y)))
| VRaw : forall v x, vstep v (OpRaw x) Done (mkV (v_wr v) (v_raw v ++ [Some x]))
| VRawDelete : forall v k x, nth_error (v_raw v) k = Some (Some x) ->
    vstep v (OpRawDelete k) Done (mkV (v_wr v) (lset (v_raw v) k None)).

Inductive vrun : values -> list wop -> list reply -> values -> Prop :=
| VEnd : forall v, vrun v [] [] v
| VThen : forall v o r v1 os rs v2, vstep v o r v1 -> vrun v1 os rs v2 -> vrun v (o :: os) (r :: rs) v2.

Definition vstart : values := mkV [] [].

(** ** Memory that represents values: every live object has exactly one owner, which holds its value. *)
Inductive owner : Type := Wrapper (i : nat) | Client (k : nat).

Definition owns (s : wstate T) (v : values) (o : owner) (a : nat) : Prop :=
  match o with
  | Wrapper i => nth_error (w_ptr s) i = Some (Some (Some a))
  | Client k => nth_error (w_raw s) k = Some a /\ exists x, nth_error (v_raw v) k = Some (Some x)
  end.

Definition value (v : values) (o : owner) (x : T) : Prop :=
  match o with
  | Wrapper i => holds v i (Some x)
  | Client k => nth_error (v_raw v) k = Some (Some x)
  end.

(** The same wrappers exist, are alive, and are empty. *)
Definition same_slot (p : option (option (option nat))) (x : option (option (option T))) : Prop :=
  match p, x with
  | None, None | Some None, Some None | Some (Some None), Some (Some None) => True
  | Some (Some (Some _)), Some (Some (Some _)) => True
  | _, _ => False
  end.

Record represents (s : wstate T) (v : values) : Prop := {
  rep_slots : forall i, same_slot (nth_error (w_ptr s) i) (nth_error (v_wr v) i);
  rep_raws : length (w_raw s) = length (v_raw v);
  rep_value : forall o a x, owns s v o a -> value v o x -> nth_error (w_heap s) a = Some (Some x);
  rep_one_owner : forall o o' a, owns s v o a -> owns s v o' a -> o = o';
  rep_no_leak : forall a x, nth_error (w_heap s) a = Some (Some x) -> exists o, owns s v o a
}.

End Ownership.

Arguments wop T B : clear implicits.
Arguments reply B : clear implicits.
Arguments values T : clear implicits.

(** [s] and [v] are what a permitted program leads to in the code and in terms of values. *)
Definition reached {T : Type} (B : Type) (clone : T -> outcome T) (s : wstate T) (v : values T) : Prop :=
  exists (os : list (wop T B)) rs, vrun clone vstart os rs v /\ run clone os start = Ok (rs, s).
