(** Specification vocabulary for meshes and fields. *)
From Coq Require Import ZArith List Bool Reals String.
From Verif Require Import Model.Outcome Model.Num Model.NumInst Model.PNDArray Model.Bin Model.Interpolator Model.Quad
  Model.Hexahedron Model.Mesh Model.PField.
From Verif Require Import Spec.Tensor Spec.Grid Spec.Funcs Spec.Shape.
Import ListNotations.
Local Open Scope Z_scope.

(** ** Histories, in any arithmetic *)

(** Meshes a client can get by reading sections, in any order and number, without failure. *)
Inductive mesh_read {O : NumOps} {K : kind O} : mesh O K -> Prop :=
| MeshNew : mesh_read mesh_new
| MeshPoints : forall m pts m', mesh_read m -> mesh_points pts m = RRet m' tt -> mesh_read m'
| MeshCells : forall m cells m', mesh_read m -> mesh_cells cells m = RRet m' tt -> mesh_read m'.

(** One points section, then one cells section: what a file contains. *)
Definition mesh_of {O : NumOps} {K : kind O} (pts : list (kpoint K)) (cells : list (list Z)) (m : mesh O K) : Prop :=
  exists m1, mesh_points pts mesh_new = RRet m1 tt /\ mesh_cells cells m1 = RRet m tt.

(** The same, read into a mesh that may already have contents. *)
Definition mesh_onto {O : NumOps} {K : kind O} (m0 : mesh O K) (pts : list (kpoint K)) (cells : list (list Z)) (m : mesh O K) : Prop :=
  exists m1, mesh_points pts m0 = RRet m1 tt /\ mesh_cells cells m1 = RRet m tt.

(** A quantity whose indices are axes of an [n]-dimensional space. *)
Definition on_axes (n : nat) (q : quantity) : Prop :=
  match q with
  | QVal => True
  | QGrad i => 0 <= i < Z.of_nat n
  | QHess i j => 0 <= i < Z.of_nat n /\ 0 <= j < Z.of_nat n
  end.

Section Histories.
Context {O : NumOps} {K : kind O} {F : FieldOps O}.
Local Notation state := (mesh O K * pfield F)%type.

(** One evaluation of a field, and the stored result of a quantity. *)
Definition field_eval (q : quantity) (c : kpoint K) : M state (ft F) :=
  match q with
  | QVal => pf_call c
  | QGrad i => pf_call_grad c i
  | QHess i j => pf_call_hess c i j
  end.
Definition field_stored (p : pfield F) (q : quantity) : outcome (ft F) :=
  match q with
  | QVal => pf_get p
  | QGrad i => pf_get_grad p i
  | QHess i j => pf_get_hess p i j
  end.

(** A client's history: evaluations that returned (with their result) or threw and were caught. *)
Definition event : Type := (quantity * kpoint K * option (ft F))%type.
Inductive field_history (s : state) : list event -> state -> Prop :=
| FieldNone : field_history s [] s
| FieldRet : forall h s1 q c a s2, field_history s h s1 -> on_axes (kdim K) q ->
    field_eval q c s1 = RRet s2 a -> field_history s (h ++ [(q, c, Some a)]) s2
| FieldThrow : forall h s1 q c e s2, field_history s h s1 -> on_axes (kdim K) q ->
    field_eval q c s1 = RThrow s2 e -> field_history s (h ++ [(q, c, None)]) s2.

(** The result of the last evaluation of [q] that returned. *)
Definition latest (h : list event) (q : quantity) : option (ft F) :=
  fold_left (fun m x => match x with
                        | (q', _, Some a) => if quantity_eq_dec q q' then Some a else m
                        | (_, _, None) => m
                        end) h None.

(** Some interpolator registered in the bin of [c] claims [c]. *)
Definition claimed (m : mesh O K) (c : kpoint K) : Prop :=
  exists l it, view (me_bin m) (kcoords K c) = Ok l /\ In it l /\ it_range it c = true.

(** A field made for a mesh that was read, with one datum per node. *)
Definition field_on (m0 : mesh O K) (data : list (ft F)) (zero : ft F) (p0 : pfield F) : Prop :=
  mesh_read m0 /\ (List.length (me_node m0) <= List.length data)%nat /\
  (exists mx, mesh_max_bin_size m0 = Ok mx /\ mx <= int_max) /\
  exists name, pf_new name m0 data zero = Ok p0.

End Histories.

(** ** Meshes of rectangles and boxes, exact reals *)

(** Number of different values in a list. *)
Definition distinct (l : list R) : Z := Z.of_nat (List.length (nodup Req_EM_T l)).

(** Cell [cell] is the rectangle (box) with first corner [lo] and edges [h]: its node numbers name the corners in order. *)
Definition cell_rect (pts : list point2) (cell : list Z) (lo h : point2) : Prop :=
  positive2 h /\ forall k, In k corners2 -> exists n, vget cell k = Ok n /\ vget pts n = Ok (corner2 lo h k).
Definition cell_box (pts : list point3) (cell : list Z) (lo h : point3) : Prop :=
  positive3 h /\ forall k, In k corners3 -> exists n, vget cell k = Ok n /\ vget pts n = Ok (corner3 lo h k).

(** A mesh of rectangles (boxes) small enough for the int counters of the code: the search grid has two bins more
    per axis than there are different coordinates. *)
Definition rect_mesh (pts : list point2) (cells : list (list Z)) : Prop :=
  cells <> [] /\ Forall (fun cell => exists lo h, cell_rect pts cell lo h) cells /\
  (distinct (map fst pts) + 2) * (distinct (map snd pts) + 2) <= int_max /\
  4 * Z.of_nat (List.length cells) <= int_max.
Definition box_mesh (pts : list point3) (cells : list (list Z)) : Prop :=
  cells <> [] /\ Forall (fun cell => exists lo h, cell_box pts cell lo h) cells /\
  (distinct (map cx pts) + 2) * ((distinct (map cy pts) + 2) * (distinct (map cz pts) + 2)) <= int_max /\
  8 * Z.of_nat (List.length cells) <= int_max.

(** [a] is the least, [z] the greatest element of [l]. *)
Definition least (a : R) (l : list R) : Prop := In a l /\ forall x, In x l -> (a <= x)%R.
Definition greatest (z : R) (l : list R) : Prop := In z l /\ forall x, In x l -> (x <= z)%R.

(** Bilinear (trilinear) interpolation of corner values [v] in the rectangle (box) at [lo] with edges [h]. *)
Definition bilinear (lo h : point2) (v : Z -> R) (r : point2) : R :=
  let s := ((fst r - fst lo) / fst h)%R in
  let t := ((snd r - snd lo) / snd h)%R in
  ((1 - t) * ((1 - s) * v 0%Z + s * v 1%Z) + t * ((1 - s) * v 3%Z + s * v 2%Z))%R.
Definition trilinear (lo h : point3) (v : Z -> R) (r : point3) : R :=
  let face := fun k => bilinear (cx lo, cy lo) (cx h, cy h) (fun j => v (k + j)) (cx r, cy r) in
  let u := ((cz r - cz lo) / cz h)%R in
  ((1 - u) * face 0%Z + u * face 4%Z)%R.

(** The corner values of a cell: nodal data of its nodes. *)
Definition cell_data (data : list R) (cell : list Z) (ks : list Z) (v : Z -> R) : Prop :=
  forall k, In k ks -> exists n, vget cell k = Ok n /\ vget data n = Ok (v k).

(** [a] is the value of [f], or the named derivative of it, at [r]. *)
Definition quantity2 (f : point2 -> R) (q : quantity) (r : point2) (a : R) : Prop :=
  match q with
  | QVal => a = f r
  | QGrad i => partial2 f i r a
  | QHess i j => second2 f i j r a
  end.
Definition quantity3 (f : point3 -> R) (q : quantity) (r : point3) (a : R) : Prop :=
  match q with
  | QVal => a = f r
  | QGrad i => partial3 f i r a
  | QHess i j => second3 f i j r a
  end.

(** [r] is a point of the meshed region. *)
Definition in_mesh2 (pts : list point2) (cells : list (list Z)) (r : point2) : Prop :=
  exists cell lo h, In cell cells /\ cell_rect pts cell lo h /\ in_rect lo h r.
Definition in_mesh3 (pts : list point3) (cells : list (list Z)) (r : point3) : Prop :=
  exists cell lo h, In cell cells /\ cell_box pts cell lo h /\ in_box lo h r.

(** Every node lying in a closed element is one of its corners, by number: no hanging nodes and no second node at a place. *)
Definition conforming (pts : list point2) (cells : list (list Z)) : Prop :=
  forall cell lo h n p, In cell cells -> cell_rect pts cell lo h -> vget pts n = Ok p -> in_rect lo h p ->
    exists k, In k corners2 /\ vget cell k = Ok n.

(** Corner numbers of the four edges of an element. *)
Definition edges2 : list (Z * Z) := [(0, 1); (1, 2); (3, 2); (0, 3)].

(** [r] lies on the straight line between [p] and [p']. *)
Definition on_segment (p p' r : point2) : Prop :=
  exists t, (0 <= t <= 1)%R /\ r = ((1 - t) * fst p + t * fst p', (1 - t) * snd p + t * snd p')%R.

(** Two elements have an edge (a corner) in common, by node number, and [r] is on it. *)
Definition shared_edge (pts : list point2) (cell cell' : list Z) (r : point2) : Prop :=
  exists a b a' b' n n' p p', (In (a, b) edges2 \/ In (b, a) edges2) /\ (In (a', b') edges2 \/ In (b', a') edges2) /\
    vget cell a = Ok n /\ vget cell b = Ok n' /\ vget cell' a' = Ok n /\ vget cell' b' = Ok n' /\
    vget pts n = Ok p /\ vget pts n' = Ok p' /\ on_segment p p' r.
Definition shared_corner (pts : list point2) (cell cell' : list Z) (r : point2) : Prop :=
  exists a a' n, In a corners2 /\ In a' corners2 /\ vget cell a = Ok n /\ vget cell' a' = Ok n /\ vget pts n = Ok r.

(** Different elements meet only in common edges and corners. *)
Definition face_to_face (pts : list point2) (cells : list (list Z)) : Prop :=
  forall cell lo h cell' lo' h' r, In cell cells -> In cell' cells -> cell_rect pts cell lo h -> cell_rect pts cell' lo' h' ->
    in_rect lo h r -> in_rect lo' h' r -> cell = cell' \/ shared_edge pts cell cell' r \/ shared_corner pts cell cell' r.

(** All elements span the same heights. *)
Definition one_layer (pts : list point3) (cells : list (list Z)) : Prop :=
  exists z dz, forall cell lo h, In cell cells -> cell_box pts cell lo h -> cz lo = z /\ cz h = dz.

(** ** Search bins and elements in 3D *)

(** The x and y coordinates of [r] are those of a point of the box. *)
Definition in_column (lo h r : point3) : Prop := between1 (cx lo) (cx h) (cx r) /\ between1 (cy lo) (cy h) (cy r).

(** Coordinate [x] falls into search bin [k] of an axis with nodal coordinates [l]: as many bins as different
    coordinates between the least and the greatest, numbered from 1 (bin 0 and the last one lie outside). *)
Definition bin_number (l : list R) (x : R) (k : Z) : Prop :=
  exists a z, least a l /\ greatest z l /\
    (a + (z - a) / IZR (distinct l) * IZR (k - 1) <= x < a + (z - a) / IZR (distinct l) * IZR k)%R.

(** The bin of [x] is one of those met by the interval from [x0] to [x1]. *)
Definition meets_bin (l : list R) (x0 x1 x : R) : Prop :=
  exists k0 k k1, bin_number l x0 k0 /\ bin_number l x k /\ bin_number l x1 k1 /\ k0 <= k <= k1.
Definition shares_bin (pts : list point3) (lo h r : point3) : Prop :=
  meets_bin (map cx pts) (cx lo) (cx lo + cx h) (cx r) /\ meets_bin (map cy pts) (cy lo) (cy lo + cy h) (cy r) /\
  meets_bin (map cz pts) (cz lo) (cz lo + cz h) (cz r).

(** Everything but the mixed second derivatives. *)
Definition unmixed (q : quantity) : Prop := match q with QHess i j => i = j | _ => True end.
