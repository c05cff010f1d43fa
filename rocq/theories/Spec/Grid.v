(** Specification vocabulary for bin grids and their call histories. *)
From Coq Require Import ZArith List Bool Reals.
From Verif Require Import Model.Outcome Model.Num Model.NumInst Model.PNDArray Model.Bin Spec.Tensor.
Import ListNotations.

(** Component-wise relations between lists of equal length. *)
Inductive Forall3 {A B C : Type} (P : A -> B -> C -> Prop) : list A -> list B -> list C -> Prop :=
| Forall3_nil : Forall3 P [] [] []
| Forall3_cons : forall a b c la lb lc, P a b c -> Forall3 P la lb lc -> Forall3 P (a :: la) (b :: lb) (c :: lc).

Inductive Forall4 {A B C D : Type} (P : A -> B -> C -> D -> Prop)
  : list A -> list B -> list C -> list D -> Prop :=
| Forall4_nil : Forall4 P [] [] [] []
| Forall4_cons : forall a b c d la lb lc ld, P a b c d -> Forall4 P la lb lc ld ->
    Forall4 P (a :: la) (b :: lb) (c :: lc) (d :: ld).

(** Some component satisfies [P]; all lists have the same length. *)
Inductive Exists3 {A B C : Type} (P : A -> B -> C -> Prop) : list A -> list B -> list C -> Prop :=
| Exists3_here : forall a b c la lb lc, P a b c -> length la = length lc -> length lb = length lc ->
    Exists3 P (a :: la) (b :: lb) (c :: lc)
| Exists3_later : forall a b c la lb lc, Exists3 P la lb lc -> Exists3 P (a :: la) (b :: lb) (c :: lc).

(** ** Grids in exact real arithmetic *)

(** A proper grid: positive spacing, a proper shape, one entry per dimension. *)
Definition proper_grid (mn inc : list R) (N : list Z) : Prop :=
  proper_shape N /\ length mn = length N /\ length inc = length N /\ Forall (fun h => (0 < h)%R) inc.

(** The point lies in the half-open region of the grid. *)
Definition inside (mn inc : list R) (N : list Z) (c : list R) : Prop :=
  Forall4 (fun a h n x => (a <= x < a + h * IZR n)%R) mn inc N c.

(** Some coordinate is below the lower or above the upper limit. *)
Definition outside (mn inc : list R) (N : list Z) (c : list R) : Prop :=
  length c = length N /\
  Exists3 (fun a hn x => (x < a)%R \/ (a + fst hn * IZR (snd hn) < x)%R) mn (combine inc N) c.

(** The point lies in the grid cell number [t]. *)
Definition in_cell (mn inc : list R) (t : list Z) (c : list R) : Prop :=
  Forall4 (fun a h k x => (a + h * IZR k <= x < a + h * IZR (k + 1))%R) mn inc t c.

(** Both points lie in one grid cell. *)
Definition same_cell (mn inc : list R) (c c' : list R) : Prop :=
  exists t, in_cell mn inc t c /\ in_cell mn inc t c'.

(** Component-wise order of points. *)
Definition below (c c' : list R) : Prop := Forall2 Rle c c'.

(** What a client sees in the bin of a coordinate. *)
Definition view {O : NumOps} {T : Type} (b : bin O T) (c : list (num O)) : outcome (list T) :=
  res_outcome (bin_contents c b).

(** ** Histories *)

(** One call on a bin object. *)
Inductive bin_op (O : NumOps) (T : Type) : Type :=
| BAdd (x : T) (c : list (num O))
| BAddOnce (x : T) (c : list (num O))
| BAddRange (x : T) (lo hi : list (num O))
| BContents (c : list (num O)).
Arguments BAdd {O T}.
Arguments BAddOnce {O T}.
Arguments BAddRange {O T}.
Arguments BContents {O T}.

(** The effect of a call, forgetting the returned value. *)
Definition bin_step {O : NumOps} {T : Type} (teqb : T -> T -> bool) (o : bin_op O T) : M (bin O T) unit :=
  match o with
  | BAdd x c => bin_add x c
  | BAddOnce x c => bin_add_once teqb x c
  | BAddRange x lo hi => bin_add_range x lo hi
  | BContents c => bin_contents c ;;; mret tt
  end.

(** What the caller must respect: a coordinate is inside the grid or (then it is rejected) outside its
    limits - never exactly on an upper limit - and the corners of a range are ordered. *)
Definition inside_or_outside (mn inc : list R) (N : list Z) (c : list R) : Prop :=
  inside mn inc N c \/ outside mn inc N c.

Definition bin_op_pre {T : Type} (mn inc : list R) (N : list Z) (o : bin_op ROps T) : Prop :=
  match o with
  | BAdd _ c => inside_or_outside mn inc N c
  | BAddOnce _ c => inside_or_outside mn inc N c
  | BAddRange _ lo hi =>
      inside_or_outside mn inc N lo /\ inside_or_outside mn inc N hi /\ below lo hi
  | BContents c => inside_or_outside mn inc N c
  end.

(** Bins reachable from a newly built grid; a call that throws is caught by the client. *)
Inductive bin_reachable {T : Type} (teqb : T -> T -> bool) (mn inc : list R) (N : list Z) : bin ROps T -> Prop :=
| BinInit : forall b : bin ROps T, @bin_make ROps T mn inc N = Ok b -> bin_reachable teqb mn inc N b
| BinStep : forall b o b', bin_reachable teqb mn inc N b -> bin_op_pre mn inc N o ->
    (bin_step teqb o b = RRet b' tt \/ exists e, bin_step teqb o b = RThrow b' e) ->
    bin_reachable teqb mn inc N b'.

(** ** Histories for an arbitrary arithmetic: any call that returned or threw. *)
Inductive later {O : NumOps} {T : Type} (teqb : T -> T -> bool) (b : bin O T) : bin O T -> Prop :=
| LaterNow : later teqb b b
| LaterStep : forall b1 o b2, later teqb b b1 ->
    (bin_step teqb o b1 = RRet b2 tt \/ exists e, bin_step teqb o b1 = RThrow b2 e) ->
    later teqb b b2.

(** Bins used only through add_once and contents. *)
Inductive once_reachable {T : Type} (teqb : T -> T -> bool) (mn inc : list R) (N : list Z) : bin ROps T -> Prop :=
| OnceInit : forall b : bin ROps T, @bin_make ROps T mn inc N = Ok b -> once_reachable teqb mn inc N b
| OnceAdd : forall b x c b', once_reachable teqb mn inc N b -> inside_or_outside mn inc N c ->
    (bin_add_once teqb x c b = RRet b' tt \/ exists e, bin_add_once teqb x c b = RThrow b' e) ->
    once_reachable teqb mn inc N b'
| OnceContents : forall b c b' l, once_reachable teqb mn inc N b -> inside mn inc N c ->
    bin_contents c b = RRet b' l ->
    once_reachable teqb mn inc N b'.

(** The equality test of the item type is right. *)
Definition decides_eq {T : Type} (teqb : T -> T -> bool) : Prop := forall x y, teqb x y = true <-> x = y.
