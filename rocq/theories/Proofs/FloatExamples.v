(** Examples beside C58, and the witness of its refutation: one rectangle, [-1, 0.4] x [0, 1]. *)
From Coq Require Import ZArith List Bool Lia ZifyBool Reals Lra String.
From Flocq Require Import Core BinarySingleNaN.
From Verif Require Import Model.Outcome Model.Num Model.NumInst Model.PNDArray Model.Bin Model.Interpolator Model.Quad Model.Mesh Model.PField.
From Verif Require Import Spec.Funcs Spec.Tensor Spec.Grid Spec.Shape Spec.Fields Spec.Rounding.
From Verif Require Import Proofs.OutcomeP Proofs.ShapeP Proofs.FieldP Proofs.RectP Proofs.FieldExamples Proofs.MeshReadP Proofs.SlopeP Proofs.FloatEvalP.
Import ListNotations.
Local Open Scope Z_scope.

Definition m1 : f64 := f64_make (-1) 0.
Definition d04 : f64 := f64_make 7205759403792794 (-54).
Definition z0 : f64 := f64_make 0 0.
Definition one : f64 := f64_make 1 0.
Definition half : f64 := f64_make 1 (-1).
Definition quarter : f64 := f64_make 1 (-2).

Lemma m1_value : value m1 = (-1)%R.
Proof. cbv; lra. Qed.
Lemma d04_value : value d04 = (7205759403792794 / 18014398509481984)%R.
Proof. cbv -[Rmult Rinv IZR Rdiv]. lra. Qed.
Lemma z0_value : value z0 = 0%R.
Proof. reflexivity. Qed.
Lemma one_value : value one = 1%R.
Proof. cbv; lra. Qed.
Lemma half_value : value half = (1 / 2)%R.
Proof. cbv; lra. Qed.
Lemma quarter_value : value quarter = (1 / 4)%R.
Proof. cbv; lra. Qed.

Definition fe_pts : list (c2 FOps) := [(m1, z0); (d04, z0); (d04, one); (m1, one)].
Definition fe_cells : list (list Z) := [[0; 1; 2; 3]].
Definition fe_data : list f64 := [one; one; one; one].

Local Notation b04 := (7205759403792794 / 18014398509481984)%R.
Definition fe_rpts : list point2 := [(-1, 0); (b04, 0); (b04, 1); (-1, 1)]%R.

Lemma fe_values : map point_value fe_pts = fe_rpts.
Proof.
  unfold fe_pts, fe_rpts, point_value. cbn [map fst snd]. rewrite m1_value, d04_value, z0_value, one_value. reflexivity.
Qed.

Definition fe_lo : point2 := (-1, 0)%R.
Definition fe_h : point2 := (b04 + 1, 1)%R.

Lemma fe_rect : cell_rect fe_rpts [0; 1; 2; 3] fe_lo fe_h.
Proof.
  split; [split; simpl; lra|]. intros k Hk. cases2 Hk;
    [exists 0|exists 1|exists 2|exists 3]; (split; [reflexivity|]); unfold vget, fe_rpts, fe_lo, fe_h, corner2; simpl; f_equal; f_equal; lra.
Qed.

Lemma fe_distinct_x : distinct (map fst fe_rpts) = 2.
Proof.
  apply (distinct_eq _ [-1; b04]%R).
  - repeat constructor; simpl; intros H; repeat (destruct H as [H|H]; [lra|]); auto.
  - intros x. simpl. tauto.
Qed.
Lemma fe_distinct_y : distinct (map snd fe_rpts) = 2.
Proof.
  apply (distinct_eq _ [0; 1]%R).
  - repeat constructor; simpl; intros H; repeat (destruct H as [H|H]; [lra|]); auto.
  - intros x. simpl. tauto.
Qed.

Lemma fe_mesh : rect_mesh fe_rpts fe_cells.
Proof.
  split; [discriminate|]. split.
  - constructor; [exists fe_lo, fe_h; exact fe_rect|constructor].
  - rewrite fe_distinct_x, fe_distinct_y. unfold int_max. split; [lia|simpl; lia].
Qed.

Lemma bpow_small : (bpow radix2 (-900) <= / 2 /\ 1 <= bpow radix2 900 /\ 4 <= bpow radix2 46)%R.
Proof.
  split; [|split].
  - change (/ 2)%R with (bpow radix2 (-1)). apply bpow_le. lia.
  - change 1%R with (bpow radix2 0). apply bpow_le. lia.
  - change 4%R with (bpow radix2 2). apply bpow_le. lia.
Qed.

Lemma fe_resolved_x : resolved (map fst fe_rpts).
Proof.
  destruct bpow_small as (A & B & C).
  exists (-1)%R, b04. split; [|split].
  - split; [simpl; auto|]. intros x. simpl. intros [<-|[<-|[<-|[<-|[]]]]]; lra.
  - split; [simpl; auto|]. intros x. simpl. intros [<-|[<-|[<-|[<-|[]]]]]; lra.
  - rewrite fe_distinct_x. cbv zeta. split; [lra|]. intros x. simpl. intros [<-|[<-|[<-|[<-|[]]]]]; rewrite ?(Rabs_left (-1)), ?(Rabs_pos_eq b04) by lra; lra.
Qed.
Lemma fe_resolved_y : resolved (map snd fe_rpts).
Proof.
  destruct bpow_small as (A & B & C).
  exists 0%R, 1%R. split; [|split].
  - split; [simpl; auto|]. intros x. simpl. intros [<-|[<-|[<-|[<-|[]]]]]; lra.
  - split; [simpl; auto|]. intros x. simpl. intros [<-|[<-|[<-|[<-|[]]]]]; lra.
  - rewrite fe_distinct_y. cbv zeta. split; [lra|]. intros x. simpl. intros [<-|[<-|[<-|[<-|[]]]]]; rewrite ?Rabs_R0, ?Rabs_R1; lra.
Qed.

Lemma fe_finite : Forall finite_point fe_pts.
Proof. repeat constructor. Qed.
Lemma fe_data_finite : Forall finite fe_data.
Proof. repeat constructor. Qed.

(** A field on this mesh. *)
Lemma fe_field : exists m p0, field64 fe_pts fe_cells fe_data m p0 /\ pf_new (F := scalar_field FOps) "f"%string m fe_data (nofZ FOps 0) = Ok p0.
Proof.
  destruct (reads64 fe_pts fe_cells fe_finite) as (m & Hof & Hnew); rewrite ?fe_values; auto using fe_mesh, fe_resolved_x, fe_resolved_y.
  destruct (Hnew fe_data "f"%string (le_n _)) as (p0 & Hp & Hon). exists m, p0. split; [|exact Hp]. unfold field64. rewrite fe_values.
  repeat (split; auto using fe_mesh, fe_resolved_x, fe_resolved_y, fe_finite, fe_data_finite).
Qed.

Lemma fe_inside : in_mesh2 (map point_value fe_pts) fe_cells (point_value (quarter, half)).
Proof.
  rewrite fe_values. exists [0; 1; 2; 3], fe_lo, fe_h. split; [simpl; auto|]. split; [exact fe_rect|].
  unfold point_value. cbn [fst snd]. rewrite quarter_value, half_value. split; cbn [fe_lo fe_h fst snd].
  - exists (5 / 4 / (b04 + 1))%R. split; [split|]; [|apply Rmult_le_reg_r with (b04 + 1)%R; [lra|]; unfold Rdiv at 1; rewrite Rmult_assoc, Rinv_l by lra; lra|field; lra].
    unfold Rdiv at 1. apply Rmult_le_pos; [lra|]. left. apply Rinv_0_lt_compat. lra.
  - exists (1 / 2)%R. lra.
Qed.

Lemma fe_near : forall r cell lo h v, cell_near fe_pts fe_cells fe_data r cell lo h v -> lo = fe_lo /\ h = fe_h /\ forall k, In k corners2 -> v k = 1%R.
Proof.
  intros r cell lo h v (Hin & Hc & _ & Hv). rewrite fe_values in Hc. destruct Hin as [<-|[]].
  destruct (cell_rect_fun _ _ _ _ _ _ Hc fe_rect) as [-> ->]. split; [reflexivity|]. split; [reflexivity|].
  intros k Hk. destruct (Hv k Hk) as (n & En & E). change (map value fe_data) with (map value [one; one; one; one]) in E. cbn [map] in E. rewrite one_value in E.
  cases2 Hk; injection En as <-; injection E as <-; reflexivity.
Qed.

Lemma fe_small : forall x, In x fe_data -> (Rabs (value x) <= bpow radix2 1000)%R.
Proof.
  intros x Hx. assert (E : x = one) by (destruct Hx as [<-|[<-|[<-|[<-|[]]]]]; reflexivity). rewrite E, one_value, Rabs_R1. change 1%R with (bpow radix2 0). apply bpow_le. lia.
Qed.

Lemma fe_clear : forall cell lo h v, cell_near fe_pts fe_cells fe_data (quarter, half) cell lo h v -> forall j, 0 <= j <= 1 ->
  (clear_of lo h j (point_value (quarter, half)) /\ bpow radix2 (-1000) <= nth2 h j /\
   forall k, In k corners2 -> Rabs (v k) <= bpow radix2 1000 * nth2 h j)%R.
Proof.
  intros cell lo h v Hn j Hj. destruct (fe_near _ _ _ _ _ Hn) as (-> & -> & Hv).
  assert (U : (unit_roundoff <= / 1024)%R) by (unfold unit_roundoff; change (/ 1024)%R with (bpow radix2 (-10)); apply bpow_le; lia).
  assert (A : (bpow radix2 (-1000) <= 1)%R) by (change 1%R with (bpow radix2 0); apply bpow_le; lia).
  assert (B : (1 <= bpow radix2 1000)%R) by (change 1%R with (bpow radix2 0); apply bpow_le; lia).
  assert (E : j = 0 \/ j = 1) by lia. unfold clear_of, point_value. cbn [fst snd]. rewrite quarter_value, half_value.
  destruct E as [-> | ->]; cbn [nth2 fe_lo fe_h fst snd]; (split; [lra|]); (split; [lra|]); intros k Hk; rewrite (Hv k Hk), Rabs_R1; nra.
Qed.

Lemma fe_clear_both : forall cell lo h v, cell_near fe_pts fe_cells fe_data (quarter, half) cell lo h v ->
  (clear_of lo h 0 (point_value (quarter, half)) /\ clear_of lo h 1 (point_value (quarter, half)) /\ bpow radix2 (-1000) <= fst h /\
   bpow radix2 (-1000) <= fst h * snd h <= bpow radix2 1000 /\ forall k, In k corners2 -> Rabs (v k) <= bpow radix2 1000 * (fst h * snd h))%R.
Proof.
  intros cell lo h v Hn. destruct (fe_clear _ _ _ _ Hn 0) as (C0 & S0 & B0); [lia|]. destruct (fe_clear _ _ _ _ Hn 1) as (C1 & _ & _); [lia|].
  destruct (fe_near _ _ _ _ _ Hn) as (-> & -> & Hv). cbn [nth2] in S0, B0. split; [exact C0|]. split; [exact C1|]. split; [exact S0|].
  assert (E : (fst fe_h * snd fe_h = fst fe_h)%R) by (cbn; lra). rewrite E. split; [split; [exact S0|]|exact B0].
  cbn [fe_h fst]. apply Rle_trans with (bpow radix2 1); [simpl; lra|apply bpow_le; lia].
Qed.

(** ** The gradient at the upper edge *)

(** What one evaluation computes, as a closed program. *)
Definition fe_run (q : quantity) (r : c2 FOps) : outcome f64 :=
  match mesh_points (K := quad_kind FOps) fe_pts mesh_new with
  | RRet m1 _ => match mesh_cells fe_cells m1 with
    | RRet m _ => match pf_new (F := scalar_field FOps) "f" m fe_data (nofZ FOps 0) with
      | Ok p0 => match field_eval (K := quad_kind FOps) (F := scalar_field FOps) q r (m, p0) with RRet _ a => Ok a | _ => Exit end
      | _ => Exit
      end
    | _ => Exit
    end
  | _ => Exit
  end.

Lemma fe_run_is : forall q r m p0 a, field64 fe_pts fe_cells fe_data m p0 -> pf_new (F := scalar_field FOps) "f"%string m fe_data (nofZ FOps 0) = Ok p0 ->
  answers m p0 q r a -> fe_run q r = Ok a.
Proof.
  intros q r m p0 a (_ & _ & _ & _ & (m' & E1 & E2) & _) Hp Ha. unfold fe_run. rewrite E1. cbv iota beta. rewrite E2. cbv iota beta.
  match goal with |- match ?x with _ => _ end = _ => change x with (pf_new (F := scalar_field FOps) "f"%string m fe_data (nofZ FOps 0)) end.
  rewrite Hp. destruct (Ha [] m p0 (FieldNone _)) as (s & E).
  match goal with |- match ?x with _ => _ end = _ => match type of E with ?y = _ => change x with y end end. rewrite E. reflexivity.
Qed.

Definition fe_edge : c2 FOps := (d04, half).

Lemma fe_edge_inside : in_mesh2 (map point_value fe_pts) fe_cells (point_value fe_edge).
Proof.
  rewrite fe_values. exists [0; 1; 2; 3], fe_lo, fe_h. split; [simpl; auto|]. split; [exact fe_rect|].
  unfold point_value, fe_edge. cbn [fst snd]. rewrite d04_value, half_value. split; cbn [fe_lo fe_h fst snd].
  - exists 1%R. lra.
  - exists (1 / 2)%R. lra.
Qed.

Lemma fe_edge_run : match fe_run (QGrad 0) fe_edge with Ok a => andb (is_finite a) (Bleb half a) | _ => false end = true.
Proof. vm_compute. reflexivity. Qed.

Lemma edge_gradient : exists pts cells data m p0 (r : c2 FOps) a, field64 pts cells data m p0 /\ finite_point r /\
  in_mesh2 (map point_value pts) cells (point_value r) /\ answers m p0 (QGrad 0) r a /\ finite a /\ (1 / 2 <= value a)%R /\
  forall cell lo h v, cell_near pts cells data r cell lo h v ->
    (bpow radix2 0 <= fst h <= bpow radix2 1)%R /\ (forall k, In k corners2 -> v k = 1%R) /\ partial2 (bilinear lo h v) 0 (point_value r) 0%R.
Proof.
  destruct fe_field as (m & p0 & Hf & Hp). assert (Fr : finite_point fe_edge) by (split; reflexivity).
  destruct (field_cell _ _ _ _ _ _ Hf Fr fe_edge_inside) as (ax & ay & i & cell & lo & h & blk & px & py & v & _ & _ & _ & Ha).
  assert (Hq : on_axes 2 (QGrad 0)) by (simpl; lia). specialize (Ha _ Hq).
  match type of Ha with answers _ _ _ _ ?x => set (a := x) in Ha end.
  exists fe_pts, fe_cells, fe_data, m, p0, fe_edge, a. split; [exact Hf|]. split; [exact Fr|]. split; [exact fe_edge_inside|]. split; [exact Ha|].
  pose proof (fe_run_is _ _ _ _ _ Hf Hp Ha) as E. pose proof fe_edge_run as B. rewrite E in B. apply andb_prop in B. destruct B as [Fa B].
  split; [exact Fa|]. split.
  - rewrite (Bleb_correct _ _ half a eq_refl Fa) in B. rewrite <- half_value. unfold value. revert B. case Rle_bool_spec; [auto|discriminate].
  - intros cell' lo' h' v' Hn. destruct (fe_near _ _ _ _ _ Hn) as (-> & -> & Hv). split; [simpl; lra|]. split; [exact Hv|].
    replace 0%R with (bilinear_slope fe_lo fe_h v' 0 (point_value fe_edge)).
    + apply bilinear_partial; [split; simpl; lra|lia].
    + unfold bilinear_slope. rewrite ?(Hv 0), ?(Hv 1), ?(Hv 2), ?(Hv 3) by (apply in_corners2; lia). cbn [nth2]. ring_simplify. try reflexivity; try lra.
Qed.

(** ** Meshes whose coordinates are too close together *)

(** Two consecutive binary64 numbers, 1.5 + 2^-52 and 1.5 + 2^-51. *)
Definition near1 : f64 := f64_make 6755399441055745 (-52).
Definition near2 : f64 := f64_make 6755399441055746 (-52).
Definition thin_pts : list (c2 FOps) := [(near1, z0); (near2, z0); (near2, one); (near1, one)].
Definition flat_pts : list (c2 FOps) := [(near1, z0); (near1, z0); (near1, one); (near1, one)].
Local Notation n1 := (6755399441055745 / 4503599627370496)%R.
Local Notation n2 := (6755399441055746 / 4503599627370496)%R.
Definition thin_rpts : list point2 := [(n1, 0); (n2, 0); (n2, 1); (n1, 1)]%R.

Lemma near1_value : value near1 = n1.
Proof. cbv -[Rmult Rinv IZR Rdiv]. lra. Qed.
Lemma near2_value : value near2 = n2.
Proof. cbv -[Rmult Rinv IZR Rdiv]. lra. Qed.
Lemma thin_values : map point_value thin_pts = thin_rpts.
Proof.
  unfold thin_pts, thin_rpts, point_value. cbn [map fst snd]. rewrite near1_value, near2_value, z0_value, one_value. reflexivity.
Qed.

Lemma thin_mesh : rect_mesh thin_rpts fe_cells.
Proof.
  assert (Dx : distinct (map fst thin_rpts) = 2).
  { apply (distinct_eq _ [n1; n2]%R).
    - repeat constructor; simpl; intros H; repeat (destruct H as [H|H]; [lra|]); auto.
    - intros x. simpl. tauto. }
  assert (Dy : distinct (map snd thin_rpts) = 2).
  { apply (distinct_eq _ [0; 1]%R).
    - repeat constructor; simpl; intros H; repeat (destruct H as [H|H]; [lra|]); auto.
    - intros x. simpl. tauto. }
  split; [discriminate|]. split.
  - constructor; [|constructor]. exists (n1, 0%R), ((n2 - n1)%R, 1%R). split; [split; simpl; lra|]. intros k Hk. cases2 Hk;
    [exists 0|exists 1|exists 2|exists 3]; (split; [reflexivity|]); unfold vget, thin_rpts, corner2; simpl; f_equal; f_equal; lra.
  - rewrite Dx, Dy. unfold int_max. split; [lia|simpl; lia].
Qed.

(** The outcome of reading four nodes and one element. *)
Definition read_of (pts : list (c2 FOps)) : option ub_reason :=
  match mesh_points (K := quad_kind FOps) pts mesh_new with
  | RRet m1 _ => match mesh_cells fe_cells m1 with RUB r => Some r | _ => None end
  | _ => None
  end.
Lemma read_of_ub pts r : read_of pts = Some r ->
  exists m1, mesh_points (K := quad_kind FOps) pts mesh_new = RRet m1 tt /\ mesh_cells fe_cells m1 = RUB r.
Proof.
  unfold read_of. destruct (mesh_points (K := quad_kind FOps) pts mesh_new) as [m1 []| | | |]; try discriminate.
  intros H. exists m1. split; [reflexivity|]. destruct (mesh_cells fe_cells m1); try discriminate. injection H as ->. reflexivity.
Qed.

Lemma thin_reads : exists pts cells m1, Forall finite_point pts /\ rect_mesh (map point_value pts) cells /\
  mesh_points (K := quad_kind FOps) pts mesh_new = RRet m1 tt /\ mesh_cells cells m1 = RUB UBOutOfBounds.
Proof.
  destruct (read_of_ub thin_pts UBOutOfBounds) as (m1 & A & B); [vm_compute; reflexivity|].
  exists thin_pts, fe_cells, m1. rewrite thin_values. split; [repeat constructor|]. split; [exact thin_mesh|]. split; assumption.
Qed.

Lemma flat_reads : exists pts cells m1, Forall finite_point pts /\ (exists v, forall p, In p pts -> value (fst p) = v) /\ cells <> [] /\
  mesh_points (K := quad_kind FOps) pts mesh_new = RRet m1 tt /\ mesh_cells cells m1 = RUB UBBadConversion.
Proof.
  destruct (read_of_ub flat_pts UBBadConversion) as (m1 & A & B); [vm_compute; reflexivity|].
  exists flat_pts, fe_cells, m1. split; [repeat constructor|]. split; [|split; [discriminate|split; assumption]].
  exists (value near1). intros p [<-|[<-|[<-|[<-|[]]]]]; reflexivity.
Qed.
