(** Examples beside C66, and the witness of its refutation: two boxes side by side, and two cubes on top of each other. *)
From Coq Require Import ZArith List Bool Lia ZifyBool Reals Lra String.
From Flocq Require Import Core BinarySingleNaN.
From Verif Require Import Model.Outcome Model.Num Model.NumInst Model.PNDArray Model.Bin Model.Interpolator Model.Hexahedron Model.Mesh Model.PField.
From Verif Require Import Spec.Funcs Spec.Tensor Spec.Grid Spec.Shape Spec.Fields Spec.Rounding Spec.Rounding3.
From Verif Require Import Proofs.OutcomeP Proofs.ShapeP Proofs.FieldP Proofs.HexP Proofs.FieldExamples Proofs.MeshReadP Proofs.FloatExamples Proofs.FloatEval3P.
Import ListNotations.
Local Open Scope Z_scope.

Local Notation c3r := (@mkC3 ROps).
Local Notation c3d := (@mkC3 FOps).

Definition two : f64 := f64_make 2 0.
Definition three : f64 := f64_make 3 0.
Lemma two_value : value two = 2%R.
Proof. cbv; lra. Qed.
Lemma three_value : value three = 3%R.
Proof. cbv; lra. Qed.

(** ** One layer: the boxes [-1, 0.4] x [0, 1] x [0, 1] and [0.4, 2] x [0, 1] x [0, 1] *)

Definition be_pts : list (c3 FOps) :=
  [c3d m1 z0 z0; c3d d04 z0 z0; c3d two z0 z0; c3d m1 one z0; c3d d04 one z0; c3d two one z0;
   c3d m1 z0 one; c3d d04 z0 one; c3d two z0 one; c3d m1 one one; c3d d04 one one; c3d two one one].
Definition be_data : list f64 := [one; two; three; one; one; two; three; two; one; two; three; one].

Local Notation b04 := (7205759403792794 / 18014398509481984)%R.
Definition be_rpts : list point3 :=
  [c3r (-1) 0 0; c3r b04 0 0; c3r 2 0 0; c3r (-1) 1 0; c3r b04 1 0; c3r 2 1 0;
   c3r (-1) 0 1; c3r b04 0 1; c3r 2 0 1; c3r (-1) 1 1; c3r b04 1 1; c3r 2 1 1]%R.

Lemma be_values : map point_value3 be_pts = be_rpts.
Proof.
  unfold be_pts, be_rpts, point_value3. cbn [map cx cy cz]. rewrite m1_value, d04_value, two_value, z0_value, one_value. reflexivity.
Qed.

Lemma be_box0 : cell_box be_rpts [0; 1; 4; 3; 6; 7; 10; 9] (c3r (-1) 0 0)%R (c3r (b04 + 1) 1 1)%R.
Proof.
  split; [unfold positive3; simpl; lra|]. intros k Hk. cases3 Hk;
    (eexists; split; [reflexivity|]); unfold vget, be_rpts, corner3; simpl; f_equal; f_equal; lra.
Qed.
Lemma be_box1 : cell_box be_rpts [1; 2; 5; 4; 7; 8; 11; 10] (c3r b04 0 0)%R (c3r (2 - b04) 1 1)%R.
Proof.
  split; [unfold positive3; simpl; lra|]. intros k Hk. cases3 Hk;
    (eexists; split; [reflexivity|]); unfold vget, be_rpts, corner3; simpl; f_equal; f_equal; lra.
Qed.

Lemma be_distinct : distinct (map cx be_rpts) = 3 /\ distinct (map cy be_rpts) = 2 /\ distinct (map cz be_rpts) = 2.
Proof.
  split; [apply (distinct_eq _ [-1; b04; 2]%R)|split; apply (distinct_eq _ [0; 1]%R)];
    try (intros x; simpl; tauto); repeat constructor; simpl; intros H; repeat (destruct H as [H|H]; [lra|]); auto.
Qed.
Lemma be_mesh : box_mesh be_rpts sl_cells.
Proof.
  destruct be_distinct as (D1 & D2 & D3). split; [discriminate|]. split.
  - constructor; [eexists; eexists; exact be_box0|]. constructor; [eexists; eexists; exact be_box1|constructor].
  - rewrite D1, D2, D3. unfold int_max. split; [lia|simpl; lia].
Qed.
Lemma be_layer : one_layer be_rpts sl_cells.
Proof.
  exists 0%R, 1%R. intros cell lo h [<-|[<-|[]]] Hc.
  - destruct (cell_box_fun _ _ _ _ _ _ Hc be_box0) as [-> ->]. auto.
  - destruct (cell_box_fun _ _ _ _ _ _ Hc be_box1) as [-> ->]. auto.
Qed.

Lemma resolved_intro : forall l n a z, distinct l = n -> In a l -> In z l -> Forall (fun x => a <= x <= z)%R l ->
  (/ 2 <= (z - a) / IZR n)%R -> (Rabs a <= 2)%R -> (Rabs z <= 2)%R -> resolved l.
Proof.
  intros l n a z Hn Ia Iz F G A Z. rewrite Forall_forall in F. destruct bpow_small as (S1 & S2 & S3). exists a, z.
  split; [split; [exact Ia|intros x Hx; apply F; exact Hx]|]. split; [split; [exact Iz|intros x Hx; apply F; exact Hx]|].
  rewrite Hn. cbv zeta. split; [lra|]. intros x Hx. specialize (F x Hx).
  assert (X : (Rabs x <= 2)%R) by (revert A Z; unfold Rabs; repeat destruct Rcase_abs; lra).
  assert (B : (2 <= bpow radix2 900)%R) by (change 2%R with (bpow radix2 1); apply bpow_le; lia).
  split; [|lra]. apply Rle_trans with (4 * / 2)%R; [lra|]. apply Rmult_le_compat; lra.
Qed.

Lemma be_resolved : resolved3 be_rpts.
Proof.
  destruct be_distinct as (D1 & D2 & D3). split; [|split].
  - apply (resolved_intro _ 3 (-1) 2); auto; try (simpl; tauto); [repeat (apply Forall_cons; [simpl; lra|]); apply Forall_nil|lra| |]; unfold Rabs; destruct Rcase_abs; lra.
  - apply (resolved_intro _ 2 0 1); auto; try (simpl; tauto); [repeat (apply Forall_cons; [simpl; lra|]); apply Forall_nil|lra| |]; unfold Rabs; destruct Rcase_abs; lra.
  - apply (resolved_intro _ 2 0 1); auto; try (simpl; tauto); [repeat (apply Forall_cons; [simpl; lra|]); apply Forall_nil|lra| |]; unfold Rabs; destruct Rcase_abs; lra.
Qed.

Lemma be_finite : Forall finite_point3 be_pts.
Proof. repeat (apply Forall_cons; [repeat split|]); apply Forall_nil. Qed.
Lemma be_data_finite : Forall finite be_data.
Proof. repeat constructor. Qed.

Lemma be_field : exists m p0, field64_3 be_pts sl_cells be_data m p0 /\ one_layer (map point_value3 be_pts) sl_cells.
Proof.
  destruct (reads64_3 be_pts sl_cells be_finite) as (m & Hof & Hnew); rewrite ?be_values; auto using be_mesh, be_resolved.
  destruct (Hnew be_data "f"%string (le_n _)) as (p0 & Hp & Hon). exists m, p0. split; [|exact be_layer]. unfold field64_3. rewrite be_values.
  repeat (split; auto using be_mesh, be_resolved, be_finite, be_data_finite).
Qed.

Definition be_r : c3 FOps := c3d quarter half half.

Lemma be_inside : in_mesh3 (map point_value3 be_pts) sl_cells (point_value3 be_r).
Proof.
  rewrite be_values. exists [0; 1; 4; 3; 6; 7; 10; 9], (c3r (-1) 0 0)%R, (c3r (b04 + 1) 1 1)%R. split; [simpl; auto|]. split; [exact be_box0|].
  unfold point_value3, be_r. cbn [cx cy cz]. rewrite quarter_value, half_value. unfold in_box, between1. cbn [cx cy cz]. split; [|split; exists (1 / 2)%R; lra].
  exists (5 / 4 / (b04 + 1))%R. split; [split|]; [|apply Rmult_le_reg_r with (b04 + 1)%R; [lra|]; unfold Rdiv at 1; rewrite Rmult_assoc, Rinv_l by lra; lra|field; lra].
  unfold Rdiv at 1. apply Rmult_le_pos; [lra|]. left. apply Rinv_0_lt_compat. lra.
Qed.

Lemma be_data_sizes : forall x, In x be_data -> (1 <= value x <= 3)%R.
Proof.
  intros x Hx. assert (E : x = one \/ x = two \/ x = three) by (revert Hx; unfold be_data; simpl; intuition auto).
  destruct E as [-> | [-> | ->]]; rewrite ?one_value, ?two_value, ?three_value; lra.
Qed.
Lemma bpow_1000 : (4 <= bpow radix2 1000 /\ bpow radix2 (-1000) <= / 4)%R.
Proof.
  split; [change 4%R with (bpow radix2 2)|change (/ 4)%R with (bpow radix2 (-2))]; apply bpow_le; lia.
Qed.
Lemma be_small : forall x, In x be_data -> (Rabs (value x) <= bpow radix2 1000)%R.
Proof. intros x Hx. apply be_data_sizes in Hx. destruct bpow_1000. rewrite Rabs_pos_eq; lra. Qed.

Lemma tiny_1024 : (0 < tiny <= / 1024)%R.
Proof. unfold tiny. split; [apply bpow_gt_0|]. change (/ 1024)%R with (bpow radix2 (-10)). apply bpow_le. lia. Qed.

Lemma be_near : forall cell lo h v, cell_near3 be_pts sl_cells be_data be_r cell lo h v ->
  lo = c3r (-1)%R 0%R 0%R /\ h = c3r (b04 + 1)%R 1%R 1%R /\ forall k, In k corners3 -> (1 <= v k <= 3)%R.
Proof.
  intros cell lo h v (Hin & Hc & (Nx & _ & _) & Hv). rewrite be_values in Hc. pose proof tiny_1024 as T.
  assert (V : forall k, In k corners3 -> (1 <= v k <= 3)%R).
  { intros k Hk. destruct (cell_data_in3 _ _ _ _ Hv Hk) as (x & Hx & ->). exact (be_data_sizes x Hx). }
  destruct Hin as [<-|[<-|[]]].
  - destruct (cell_box_fun _ _ _ _ _ _ Hc be_box0) as [-> ->]. auto.
  - destruct (cell_box_fun _ _ _ _ _ _ Hc be_box1) as [-> ->]. exfalso. unfold Rounding.near1, point_value3, be_r in Nx. cbn [cx] in Nx. rewrite quarter_value in Nx.
    destruct Nx as [N _]. assert (2 * tiny * (2 - b04) <= / 256)%R by nra. lra.
Qed.

Lemma be_clear : forall cell lo h v, cell_near3 be_pts sl_cells be_data be_r cell lo h v -> forall j, 0 <= j <= 2 ->
  (clear_of3 lo h j (point_value3 be_r) /\ bpow radix2 (-1000) <= nth3 h j /\
   forall k, In k corners3 -> Rabs (v k) <= bpow radix2 1000 * nth3 h j)%R.
Proof.
  intros cell lo h v Hn j Hj. destruct (be_near _ _ _ _ Hn) as (-> & -> & Hv). destruct bpow_1000 as [A B].
  assert (U : (unit_roundoff <= / 1024)%R) by (unfold unit_roundoff; change (/ 1024)%R with (bpow radix2 (-10)); apply bpow_le; lia).
  assert (E : j = 0 \/ j = 1 \/ j = 2) by lia. unfold clear_of3, point_value3, be_r. cbn [cx cy cz]. rewrite quarter_value, half_value.
  destruct E as [-> | [-> | ->]]; cbn [nth3 cx cy cz]; (split; [lra|]); (split; [lra|]); intros k Hk; specialize (Hv k Hk); rewrite Rabs_pos_eq by lra; nra.
Qed.

(** ** Two layers: unit cubes at z = 0 and z = 1 *)

Definition sk_pts : list (c3 FOps) :=
  [c3d z0 z0 z0; c3d one z0 z0; c3d one one z0; c3d z0 one z0;
   c3d z0 z0 one; c3d one z0 one; c3d one one one; c3d z0 one one;
   c3d z0 z0 two; c3d one z0 two; c3d one one two; c3d z0 one two].
Definition eight : f64 := f64_make 8 0.
Definition d125 : f64 := f64_make 5 (-2).
Definition sk_data : list f64 := [z0; z0; z0; z0; z0; z0; z0; z0; eight; eight; eight; eight].
Definition sk_r : c3 FOps := c3d half half d125.
Lemma eight_value : value eight = 8%R.
Proof. cbv; lra. Qed.
Lemma d125_value : value d125 = (5 / 4)%R.
Proof. cbv; lra. Qed.

Lemma sk_values : map point_value3 sk_pts = st_pts.
Proof. unfold sk_pts, st_pts, point_value3. cbn [map cx cy cz]. rewrite two_value, z0_value, one_value. reflexivity. Qed.
Lemma sk_point : point_value3 sk_r = st_r.
Proof. unfold sk_r, st_r, point_value3. cbn [cx cy cz]. rewrite half_value, d125_value. reflexivity. Qed.

Lemma sk_resolved : resolved3 st_pts.
Proof.
  split; [|split].
  - apply (resolved_intro _ 2 0 1); auto using st_distinct_x; try (simpl; tauto); [repeat (apply Forall_cons; [simpl; lra|]); apply Forall_nil|lra| |]; unfold Rabs; destruct Rcase_abs; lra.
  - apply (resolved_intro _ 2 0 1); auto using st_distinct_y; try (simpl; tauto); [repeat (apply Forall_cons; [simpl; lra|]); apply Forall_nil|lra| |]; unfold Rabs; destruct Rcase_abs; lra.
  - apply (resolved_intro _ 3 0 2); auto using st_distinct_z; try (simpl; tauto); [repeat (apply Forall_cons; [simpl; lra|]); apply Forall_nil|lra| |]; unfold Rabs; destruct Rcase_abs; lra.
Qed.

Lemma sk_finite : Forall finite_point3 sk_pts.
Proof. repeat (apply Forall_cons; [repeat split|]); apply Forall_nil. Qed.

Lemma sk_field : exists m p0, field64_3 sk_pts st_cells sk_data m p0 /\ pf_new (F := scalar_field FOps) "f"%string m sk_data (nofZ FOps 0) = Ok p0.
Proof.
  destruct (reads64_3 sk_pts st_cells sk_finite) as (m & Hof & Hnew); rewrite ?sk_values; auto using st_mesh, sk_resolved.
  destruct (Hnew sk_data "f"%string (le_n _)) as (p0 & Hp & Hon). exists m, p0. split; [|exact Hp]. unfold field64_3. rewrite sk_values.
  assert (Fd : Forall finite sk_data) by repeat constructor.
  repeat (split; auto using st_mesh, sk_resolved, sk_finite).
Qed.

Lemma sk_inside : in_mesh3 (map point_value3 sk_pts) st_cells (point_value3 sk_r).
Proof. rewrite sk_values, sk_point. exact st_in_mesh. Qed.

(** What one evaluation computes, as a closed program. *)
Definition sk_run (q : quantity) (r : c3 FOps) : outcome f64 :=
  match mesh_points (K := hex_kind FOps) sk_pts mesh_new with
  | RRet m1 _ => match mesh_cells st_cells m1 with
    | RRet m _ => match pf_new (F := scalar_field FOps) "f" m sk_data (nofZ FOps 0) with
      | Ok p0 => match field_eval (K := hex_kind FOps) (F := scalar_field FOps) q r (m, p0) with RRet _ a => Ok a | _ => Exit end
      | _ => Exit
      end
    | _ => Exit
    end
  | _ => Exit
  end.

Lemma sk_run_is : forall q r m p0 a, field64_3 sk_pts st_cells sk_data m p0 -> pf_new (F := scalar_field FOps) "f"%string m sk_data (nofZ FOps 0) = Ok p0 ->
  answers3 m p0 q r a -> sk_run q r = Ok a.
Proof.
  intros q r m p0 a (_ & _ & _ & (m' & E1 & E2) & _) Hp Ha. unfold sk_run. rewrite E1. cbv iota beta. rewrite E2. cbv iota beta.
  match goal with |- match ?x with _ => _ end = _ => change x with (pf_new (F := scalar_field FOps) "f"%string m sk_data (nofZ FOps 0)) end.
  rewrite Hp. destruct (Ha [] m p0 (FieldNone _)) as (s & E).
  match goal with |- match ?x with _ => _ end = _ => match type of E with ?y = _ => change x with y end end. rewrite E. reflexivity.
Qed.

Lemma sk_computed : match sk_run QVal sk_r with Ok a => andb (is_finite a) (andb (Bleb a z0) (Bleb z0 a)) | _ => false end = true.
Proof. vm_compute. reflexivity. Qed.

Lemma sk_near : forall cell lo h v, cell_near3 sk_pts st_cells sk_data sk_r cell lo h v -> trilinear lo h v (point_value3 sk_r) = 2%R.
Proof.
  intros cell lo h v (Hin & Hc & (_ & _ & Nz) & Hv). rewrite sk_values in Hc. rewrite sk_point in *. pose proof tiny_1024 as T.
  destruct Hin as [<-|[<-|[]]].
  - destruct (cell_box_fun _ _ _ _ _ _ Hc st_box0) as [-> ->]. exfalso. unfold Rounding.near1, st_r in Nz. cbn [cz] in Nz. lra.
  - destruct (cell_box_fun _ _ _ _ _ _ Hc st_box1) as [-> ->].
    assert (D : map value sk_data = [0; 0; 0; 0; 0; 0; 0; 0; 8; 8; 8; 8]%R) by (unfold sk_data; cbn [map]; rewrite z0_value, eight_value; reflexivity).
    rewrite D in Hv. assert (V : forall k, In k corners3 -> v k = if k <? 4 then 0%R else 8%R).
    { intros k Hk. destruct (Hv k Hk) as (n & A & B). cases3 Hk; simpl in A; injection A as <-; unfold vget in B; simpl in B; injection B as <-; reflexivity. }
    unfold trilinear, bilinear, st_r. cbn [cx cy cz fst snd Z.add Pos.add Pos.succ].
    rewrite !V by (apply in_corners3; lia). cbn [Z.ltb Z.compare Pos.compare Pos.compare_cont]. field.
Qed.

Lemma wrong_layer64 : exists pts cells data m p0 (r : c3 FOps) a, field64_3 pts cells data m p0 /\ finite_point3 r /\
  in_mesh3 (map point_value3 pts) cells (point_value3 r) /\ (forall x, In x data -> (0 <= value x <= 8)%R) /\ answers3 m p0 QVal r a /\ finite a /\
  forall cell lo h v, cell_near3 pts cells data r cell lo h v -> (Rabs (value a - trilinear lo h v (point_value3 r)) >= 2)%R.
Proof.
  destruct sk_field as (m & p0 & Hf & Hp). assert (Fr : finite_point3 sk_r) by (repeat split).
  destruct (evaluates3 _ _ _ _ _ _ QVal Hf Fr sk_inside I) as (a & Ha).
  exists sk_pts, st_cells, sk_data, m, p0, sk_r, a. split; [exact Hf|]. split; [exact Fr|]. split; [exact sk_inside|]. split.
  { intros x Hx. assert (E : x = z0 \/ x = eight) by (revert Hx; unfold sk_data; simpl; intuition auto).
    destruct E as [-> | ->]; rewrite ?z0_value, ?eight_value; lra. }
  split; [exact Ha|].
  pose proof (sk_run_is _ _ _ _ _ Hf Hp Ha) as E. pose proof sk_computed as B. rewrite E in B. apply andb_prop in B. destruct B as [Fa B].
  apply andb_prop in B. destruct B as [B1 B2]. split; [exact Fa|]. intros cell lo h v Hn. rewrite (sk_near _ _ _ _ Hn).
  rewrite (Bleb_correct _ _ a z0 Fa eq_refl) in B1. rewrite (Bleb_correct _ _ z0 a eq_refl Fa) in B2.
  assert (Ea : value a = 0%R). { unfold value. revert B1 B2. change (B2R z0) with 0%R. do 2 (case Rle_bool_spec; [|discriminate]). intros; lra. }
  rewrite Ea. unfold Rabs. destruct Rcase_abs; lra.
Qed.
