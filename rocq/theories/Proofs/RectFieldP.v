(** Consequences for fields on rectangles: nodal values, bounds, affine data, shared edges, continuity (C19, C20). *)
From Coquelicot Require Import Coquelicot.
From Coq Require Import ZArith List Bool Lia ZifyBool Reals Lra String.
From Verif Require Import Model.Outcome Model.Num Model.NumInst Model.Bin Model.Interpolator Model.Quad Model.Hexahedron
  Model.Mesh Model.PField.
From Verif Require Import Spec.Tensor Spec.Grid Spec.Funcs Spec.Shape Spec.Fields.
From Verif Require Import Proofs.OutcomeP Proofs.ShapeP Proofs.MeshRP Proofs.RectP.
Import ListNotations.
Local Open Scope Z_scope.

Section RectField.
Let K := quad_kind ROps.

(** ** Bilinear functions *)

Lemma bilinear_corner : forall lo h v k, proper2 h -> In k corners2 -> bilinear lo h v (corner2 lo h k) = v k.
Proof.
  intros [a b] [c d] v k [H1 H2] Hk. simpl in H1, H2. cases2 Hk; unfold bilinear, corner2; simpl; field; auto.
Qed.

Lemma convex_between : forall s x y, (0 <= s <= 1)%R -> (Rmin x y <= (1 - s) * x + s * y <= Rmax x y)%R.
Proof.
  intros s x y Hs. unfold Rmin, Rmax. destruct (Rle_dec x y); nra.
Qed.

Lemma bilinear_between : forall lo h v r, positive2 h -> in_rect lo h r ->
  exists k1 k2, In k1 corners2 /\ In k2 corners2 /\ (v k1 <= bilinear lo h v r <= v k2)%R.
Proof.
  intros lo h v r Hp [Hx Hy]. destruct (positive_proper2 h Hp) as [P1 P2].
  apply between1_ratio in Hx; auto. apply between1_ratio in Hy; auto. unfold bilinear.
  set (s := ((fst r - fst lo) / fst h)%R) in *. set (t := ((snd r - snd lo) / snd h)%R) in *.
  pose proof (convex_between s (v 0) (v 1) Hx) as B1. pose proof (convex_between s (v 3) (v 2) Hx) as B2.
  set (p := ((1 - s) * v 0%Z + s * v 1%Z)%R) in *. set (q := ((1 - s) * v 3%Z + s * v 2%Z)%R) in *.
  pose proof (convex_between t p q Hy) as B3.
  assert (Hlow : exists k, In k corners2 /\ (v k <= Rmin p q)%R).
  { unfold Rmin in *. destruct (Rle_dec (v 0) (v 1)), (Rle_dec (v 3) (v 2)), (Rle_dec p q);
      match goal with
      | |- exists k, _ /\ (v k <= ?z)%R =>
          first [exists 0; split; [simpl; tauto|lra]|exists 1; split; [simpl; tauto|lra]
                |exists 2; split; [simpl; tauto|lra]|exists 3; split; [simpl; tauto|lra]]
      end. }
  assert (Hhigh : exists k, In k corners2 /\ (Rmax p q <= v k)%R).
  { unfold Rmax in *. destruct (Rle_dec (v 0) (v 1)), (Rle_dec (v 3) (v 2)), (Rle_dec p q);
      match goal with
      | |- exists k, _ /\ (?z <= v k)%R =>
          first [exists 0; split; [simpl; tauto|lra]|exists 1; split; [simpl; tauto|lra]
                |exists 2; split; [simpl; tauto|lra]|exists 3; split; [simpl; tauto|lra]]
      end. }
  destruct Hlow as (k1 & I1 & L1). destruct Hhigh as (k2 & I2 & L2). exists k1, k2. split; auto. split; auto. lra.
Qed.

Lemma bilinear_affine : forall lo h v (al be ga : R), proper2 h ->
  (forall k, In k corners2 -> v k = (al + be * fst (corner2 lo h k) + ga * snd (corner2 lo h k))%R) ->
  forall r, bilinear lo h v r = (al + be * fst r + ga * snd r)%R.
Proof.
  intros [a b] [c d] v al be ga [H1 H2] Hv [x y]. unfold bilinear.
  rewrite (Hv 0), (Hv 1), (Hv 2), (Hv 3) by (simpl; tauto). unfold corner2; simpl in *. field. auto.
Qed.

Lemma bilinear_edge : forall lo h v a b t, proper2 h -> In (a, b) edges2 \/ In (b, a) edges2 ->
  bilinear lo h v ((1 - t) * fst (corner2 lo h a) + t * fst (corner2 lo h b),
                   (1 - t) * snd (corner2 lo h a) + t * snd (corner2 lo h b))%R = ((1 - t) * v a + t * v b)%R.
Proof.
  intros [l0 l1] [c d] v a b t [H1 H2] H. simpl in H1, H2.
  unfold edges2 in H; simpl in H.
  destruct H as [H|H]; repeat (destruct H as [H|H]; [injection H as <- <-; unfold bilinear, corner2; simpl; field; auto|]);
    destruct H.
Qed.

Lemma edge_corners : forall a b, In (a, b) edges2 \/ In (b, a) edges2 -> In a corners2 /\ In b corners2.
Proof.
  intros a b H. unfold edges2 in H; simpl in H. unfold corners2; simpl.
  destruct H as [H|H]; repeat (destruct H as [H|H]; [injection H as <- <-; tauto|]); destruct H.
Qed.

Lemma cell_corner : forall pts cell lo h k n p, cell_rect pts cell lo h -> In k corners2 -> vget cell k = Ok n -> vget pts n = Ok p ->
  p = corner2 lo h k.
Proof.
  intros pts cell lo h k n p [_ H] Hk Hn Hp. destruct (H k Hk) as (n' & A & B).
  assert (n' = n) by congruence. subst n'. pose proof (eq_trans (eq_sym Hp) B) as E.
  exact (f_equal (fun x => match x with Ok a => a | _ => p end) E).
Qed.

Lemma data_corner : forall (data : list R) cell v k n x, cell_data data cell corners2 v -> In k corners2 -> vget cell k = Ok n ->
  vget data n = Ok x -> v k = x.
Proof.
  intros data cell v k n x H Hk Hn Hx. destruct (H k Hk) as (n' & A & B). congruence.
Qed.

Lemma node_datum : forall (data : list R) cell v k n, cell_data data cell corners2 v -> In k corners2 -> vget cell k = Ok n ->
  vget data n = Ok (v k).
Proof. intros data cell v k n H Hk Hn. destruct (H k Hk) as (n' & A & B). congruence. Qed.

(** C20, geometry *)
Lemma shared_edge_value : forall pts (data : list R) cell lo h v cell' lo' h' v' r,
  cell_rect pts cell lo h -> cell_rect pts cell' lo' h' -> cell_data data cell corners2 v -> cell_data data cell' corners2 v' ->
  shared_edge pts cell cell' r -> bilinear lo h v r = bilinear lo' h' v' r.
Proof.
  intros pts data cell lo h v cell' lo' h' v' r Hc Hc' Hd Hd' (a & b & a' & b' & n & n' & p & p' & Hab & Hab' & Ea & Eb & Ea' & Eb' & Hp & Hp' & t & Ht & Hr).
  destruct (edge_corners _ _ Hab) as [Ia Ib]. destruct (edge_corners _ _ Hab') as [Ia' Ib'].
  assert (P1 := cell_corner _ _ _ _ _ _ _ Hc Ia Ea Hp). assert (P2 := cell_corner _ _ _ _ _ _ _ Hc Ib Eb Hp').
  assert (P3 := cell_corner _ _ _ _ _ _ _ Hc' Ia' Ea' Hp). assert (P4 := cell_corner _ _ _ _ _ _ _ Hc' Ib' Eb' Hp').
  assert (Q : proper2 h) by (apply positive_proper2; apply Hc). assert (Q' : proper2 h') by (apply positive_proper2; apply Hc').
  assert (E1 : bilinear lo h v r = ((1 - t) * v a + t * v b)%R).
  { rewrite Hr, P1, P2. apply bilinear_edge; auto. }
  assert (E2 : bilinear lo' h' v' r = ((1 - t) * v' a' + t * v' b')%R).
  { rewrite Hr, P3, P4. apply bilinear_edge; auto. }
  rewrite E1, E2.
  rewrite (data_corner data cell v a n (v' a') Hd Ia Ea (node_datum _ _ _ _ _ Hd' Ia' Ea')).
  rewrite (data_corner data cell v b n' (v' b') Hd Ib Eb (node_datum _ _ _ _ _ Hd' Ib' Eb')). reflexivity.
Qed.

Lemma shared_corner_value : forall pts (data : list R) cell lo h v cell' lo' h' v' r,
  cell_rect pts cell lo h -> cell_rect pts cell' lo' h' -> cell_data data cell corners2 v -> cell_data data cell' corners2 v' ->
  shared_corner pts cell cell' r -> bilinear lo h v r = bilinear lo' h' v' r.
Proof.
  intros pts data cell lo h v cell' lo' h' v' r Hc Hc' Hd Hd' (a & a' & n & Ia & Ia' & Ea & Ea' & Hp).
  assert (P1 := cell_corner _ _ _ _ _ _ _ Hc Ia Ea Hp). assert (P3 := cell_corner _ _ _ _ _ _ _ Hc' Ia' Ea' Hp).
  assert (Q : proper2 h) by (apply positive_proper2; apply Hc). assert (Q' : proper2 h') by (apply positive_proper2; apply Hc').
  assert (E1 : bilinear lo h v r = v a) by (rewrite P1; apply bilinear_corner; auto).
  assert (E2 : bilinear lo' h' v' r = v' a') by (rewrite P3; apply bilinear_corner; auto).
  rewrite E1, E2. exact (data_corner data cell v a n (v' a') Hd Ia Ea (node_datum _ _ _ _ _ Hd' Ia' Ea')).
Qed.

(** ** Fields *)

Section OneField.
Variables (pts : list point2) (cells : list (list Z)) (m : mesh ROps K) (data : list R) (name : string)
  (p0 : pfield (scalar_field ROps)).
Hypothesis Hr : rect_mesh pts cells.
Hypothesis Hof : mesh_of (K := K) pts cells m.
Hypothesis Hd : (List.length pts <= List.length data)%nat.
Hypothesis Hp0 : pf_new (F := scalar_field ROps) name m data 0%R = Ok p0.

(** C19: nodes *)
Lemma rect_nodal : forall n p x, conforming pts cells -> vget pts n = Ok p -> vget data n = Ok x -> in_mesh2 pts cells p ->
  forall hist m' p', field_history (m, p0) hist (m', p') -> exists s, field_eval (K := K) QVal p (m', p') = RRet s x.
Proof.
  intros n p x Hconf Hp Hx Hin hist m' p' Hh.
  destruct (rect_field pts cells m data name p0 p Hr Hof Hd Hp0 Hin) as (cell & lo & h & v & Hc & Hrect & Hinr & Hv & Hev).
  destruct (Hev hist m' p' Hh QVal I) as (s & a & Es & Ha). simpl in Ha.
  destruct (Hconf cell lo h n p Hc Hrect Hp Hinr) as (k & Hk & Hn).
  assert (P1 := cell_corner _ _ _ _ _ _ _ Hrect Hk Hn Hp).
  exists s. refine (eq_trans Es _). f_equal. refine (eq_trans Ha _). rewrite P1.
  rewrite bilinear_corner; auto; [|apply positive_proper2; apply Hrect].
  exact (data_corner data cell v k n x Hv Hk Hn Hx).
Qed.

(** C19: maximum principle *)
Lemma rect_maximum : forall r, in_mesh2 pts cells r -> exists cell lo h v k1 k2, In cell cells /\ cell_rect pts cell lo h /\
  in_rect lo h r /\ cell_data data cell corners2 v /\ In k1 corners2 /\ In k2 corners2 /\
  forall hist m' p', field_history (m, p0) hist (m', p') -> exists s a, field_eval (K := K) QVal r (m', p') = RRet s a /\ (v k1 <= a <= v k2)%R.
Proof.
  intros r Hin. destruct (rect_field pts cells m data name p0 r Hr Hof Hd Hp0 Hin) as (cell & lo & h & v & Hc & Hrect & Hinr & Hv & Hev).
  destruct (bilinear_between lo h v r (proj1 Hrect) Hinr) as (k1 & k2 & I1 & I2 & Hb).
  exists cell, lo, h, v, k1, k2. repeat (split; [assumption|]).
  intros hist m' p' Hh. destruct (Hev hist m' p' Hh QVal I) as (s & a & Es & Ha). simpl in Ha. exists s, a. subst a. auto.
Qed.

(** C19: affine data *)
Lemma rect_affine : forall al be ga, (forall n p x, vget pts n = Ok p -> vget data n = Ok x -> x = (al + be * fst p + ga * snd p)%R) ->
  forall r, in_mesh2 pts cells r -> forall hist m' p' q, field_history (m, p0) hist (m', p') -> on_axes 2 q ->
  exists s a, field_eval (K := K) q r (m', p') = RRet s a /\ quantity2 (fun p => al + be * fst p + ga * snd p)%R q r a.
Proof.
  intros al be ga Haf r Hin hist m' p' q Hh Hq.
  destruct (rect_field pts cells m data name p0 r Hr Hof Hd Hp0 Hin) as (cell & lo & h & v & Hc & Hrect & Hinr & Hv & Hev).
  destruct (Hev hist m' p' Hh q Hq) as (s & a & Es & Ha). exists s, a. split; auto.
  eapply quantity2_ext; [|exact Ha]. apply bilinear_affine; [apply positive_proper2; apply Hrect|].
  intros k Hk. destruct Hrect as [_ Hcs]. destruct (Hcs k Hk) as (n & An & Bn).
  apply (Haf n); auto. exact (node_datum _ _ _ _ _ Hv Hk An).
Qed.

(** C20: the element does not matter *)
Lemma rect_any_element : forall r, face_to_face pts cells -> forall cell lo h v, In cell cells -> cell_rect pts cell lo h ->
  in_rect lo h r -> cell_data data cell corners2 v ->
  forall hist m' p', field_history (m, p0) hist (m', p') -> exists s, field_eval (K := K) QVal r (m', p') = RRet s (bilinear lo h v r).
Proof.
  intros r Hff cell lo h v Hc Hrect Hin Hv hist m' p' Hh.
  assert (Hm : in_mesh2 pts cells r) by (exists cell, lo, h; auto).
  destruct (rect_field pts cells m data name p0 r Hr Hof Hd Hp0 Hm) as (cell' & lo' & h' & v' & Hc' & Hrect' & Hinr' & Hv' & Hev).
  destruct (Hev hist m' p' Hh QVal I) as (s & a & Es & Ha). simpl in Ha. exists s. refine (eq_trans Es _). f_equal. refine (eq_trans Ha _).
  destruct (Hff _ _ _ _ _ _ r Hc' Hc Hrect' Hrect Hinr' Hin) as [->|[H|H]].
  - destruct (cell_rect_fun _ _ _ _ _ _ Hrect Hrect') as [-> ->]. apply bilinear_ext. apply (cell_data_fun data cell); auto.
  - eapply shared_edge_value; eauto.
  - eapply shared_corner_value; eauto.
Qed.

(** ** Continuity *)

Lemma bilinear_continuous : forall lo h v x y, continuity_2d_pt (fun u w => bilinear lo h v (u, w)) x y.
Proof.
  intros lo h v x y. unfold bilinear. cbn [fst snd].
  assert (C1 : continuity_2d_pt (fun u w : R => (u - fst lo) / fst h)%R x y).
  { unfold Rdiv. apply continuity_2d_pt_mult; [|apply continuity_2d_pt_const].
    apply continuity_2d_pt_minus; [apply continuity_2d_pt_id1|apply continuity_2d_pt_const]. }
  assert (C2 : continuity_2d_pt (fun u w : R => (w - snd lo) / snd h)%R x y).
  { unfold Rdiv. apply continuity_2d_pt_mult; [|apply continuity_2d_pt_const].
    apply continuity_2d_pt_minus; [apply continuity_2d_pt_id2|apply continuity_2d_pt_const]. }
  apply continuity_2d_pt_plus; apply continuity_2d_pt_mult; try assumption;
    try (apply continuity_2d_pt_minus; [apply continuity_2d_pt_const|assumption]);
    apply continuity_2d_pt_plus; apply continuity_2d_pt_mult; try assumption; try apply continuity_2d_pt_const;
    apply continuity_2d_pt_minus; try assumption; apply continuity_2d_pt_const.
Qed.

Lemma in_rect_iff : forall lo h (r : point2), positive2 h -> in_rect lo h r <->
  (fst lo <= fst r <= fst lo + fst h)%R /\ (snd lo <= snd r <= snd lo + snd h)%R.
Proof.
  intros lo h r Hp. rewrite in_rect_below by auto. unfold below, hi2; simpl. split.
  - intros [G1 G2]. inversion G1 as [|? ? ? ? I1 I2]; inversion I2 as [|? ? ? ? I3 _]; subst.
    inversion G2 as [|? ? ? ? J1 J2]; inversion J2 as [|? ? ? ? J3 _]; subst. lra.
  - intros [G1 G2]. split; (constructor; [lra|constructor; [lra|constructor]]).
Qed.

Lemma rect_locally_out : forall lo h x y, positive2 h -> ~ in_rect lo h (x, y) ->
  locally_2d (fun u w => ~ in_rect lo h (u, w)) x y.
Proof.
  intros [lx ly] [hx hy] x y Hp Hn.
  assert (G : exists d : posreal, (x + d < lx)%R \/ (lx + hx < x - d)%R \/ (y + d < ly)%R \/ (ly + hy < y - d)%R).
  { rewrite in_rect_iff in Hn by auto. cbn [fst snd] in Hn.
    destruct (Rlt_or_le x (lx)) as [C|C1].
    { assert (P : (0 < (lx - x) / 2)%R) by lra. exists (mkposreal _ P). left; cbn [pos]; lra. }
    destruct (Rlt_or_le (lx + hx) x) as [C|C2].
    { assert (P : (0 < (x - (lx + hx)) / 2)%R) by lra. exists (mkposreal _ P). right; left; cbn [pos]; lra. }
    destruct (Rlt_or_le y (ly)) as [C|C3].
    { assert (P : (0 < (ly - y) / 2)%R) by lra. exists (mkposreal _ P). right; right; left; cbn [pos]; lra. }
    destruct (Rlt_or_le (ly + hy) y) as [C|C4].
    { assert (P : (0 < (y - (ly + hy)) / 2)%R) by lra. exists (mkposreal _ P). right; right; right; cbn [pos]; lra. }
    exfalso. apply Hn. lra. }
  destruct G as (d & G). exists d. intros u w Hu Hw. rewrite in_rect_iff by auto. cbn [fst snd].
  apply Rabs_def2 in Hu. apply Rabs_def2 in Hw. lra.
Qed.

Lemma rect_in_dec : forall lo h r, positive2 h -> in_rect lo h r \/ ~ in_rect lo h r.
Proof.
  intros lo h r Hp. rewrite in_rect_iff by auto.
  destruct (Rle_dec (fst lo) (fst r)), (Rle_dec (fst r) (fst lo + fst h)), (Rle_dec (snd lo) (snd r)), (Rle_dec (snd r) (snd lo + snd h));
    try (right; lra). left; lra.
Qed.

Lemma rect_field_continuous : face_to_face pts cells ->
  exists phi : point2 -> R,
    (forall r hist m' p', in_mesh2 pts cells r -> field_history (m, p0) hist (m', p') ->
       exists s, field_eval (K := K) QVal r (m', p') = RRet s (phi r)) /\
    (forall r, in_mesh2 pts cells r -> forall eps, (0 < eps)%R -> exists delta, (0 < delta)%R /\
       forall r', in_mesh2 pts cells r' -> (Rabs (fst r' - fst r) < delta)%R -> (Rabs (snd r' - snd r) < delta)%R ->
         (Rabs (phi r' - phi r) < eps)%R).
Proof.
  intros Hff.
  set (phi := fun r => match field_eval (K := K) QVal r (m, p0) with RRet _ a => a | _ => 0%R end).
  assert (Hphi : forall r cell lo h v, In cell cells -> cell_rect pts cell lo h -> in_rect lo h r -> cell_data data cell corners2 v ->
            phi r = bilinear lo h v r).
  { intros r cell lo h v Hc Hrect Hin Hv.
    destruct (rect_any_element r Hff cell lo h v Hc Hrect Hin Hv [] m p0 (FieldNone _)) as (s & Es). unfold phi. rewrite Es. reflexivity. }
  exists phi. split.
  { intros r hist m' p' (cell & lo & h & Hc & Hrect & Hin) Hh.
    pose proof (cellv_data pts cell lo h data Hrect Hd) as Hv.
    rewrite (Hphi r cell lo h _ Hc Hrect Hin Hv). eapply rect_any_element; eauto. }
  intros [x y] Hin eps He.
  assert (L : forall cs, (forall c, In c cs -> In c cells) ->
     locally_2d (fun u w => forall cell lo h, In cell cs -> cell_rect pts cell lo h -> in_rect lo h (u, w) ->
        (Rabs (phi (u, w) - phi (x, y)) < eps)%R) x y).
  { induction cs as [|c cs IH]; intros Hcs.
    - exists (mkposreal 1 Rlt_0_1). intros u w _ _ cell lo h [].
    - specialize (IH (fun c' Hc' => Hcs c' (or_intror Hc'))).
      assert (Hc : In c cells) by (apply Hcs; simpl; auto).
      assert (L1 : locally_2d (fun u w => forall lo h, cell_rect pts c lo h -> in_rect lo h (u, w) -> (Rabs (phi (u, w) - phi (x, y)) < eps)%R) x y).
      { destruct Hr as (_ & Hcells & _). rewrite Forall_forall in Hcells. destruct (Hcells c Hc) as (lo & h & Hrect).
        destruct (rect_in_dec lo h (x, y) (proj1 Hrect)) as [Hxy|Hxy].
        - pose proof (cellv_data pts c lo h data Hrect Hd) as Hv.
          apply (locally_2d_impl (fun u w => Rabs (bilinear lo h (cellv data c) (u, w) - bilinear lo h (cellv data c) (x, y)) < eps)%R).
          + apply locally_2d_forall. intros u w Hb lo1 h1 Hrect1 Huw.
            destruct (cell_rect_fun _ _ _ _ _ _ Hrect Hrect1) as [<- <-].
            rewrite (Hphi (u, w) c lo h _ Hc Hrect Huw Hv), (Hphi (x, y) c lo h _ Hc Hrect Hxy Hv). exact Hb.
          + exact (bilinear_continuous lo h (cellv data c) x y (mkposreal eps He)).
        - apply (locally_2d_impl (fun u w => ~ in_rect lo h (u, w))); [|apply rect_locally_out; auto; apply Hrect].
          apply locally_2d_forall. intros u w Hb lo1 h1 Hrect1 Huw.
          destruct (cell_rect_fun _ _ _ _ _ _ Hrect Hrect1) as [<- <-]. contradiction. }
      apply (locally_2d_impl _ _ x y) with (2 := locally_2d_and _ _ x y L1 IH).
      apply locally_2d_forall. intros u w [G1 G2] cell lo h [->|Hi] Hrect Huw; [exact (G1 lo h Hrect Huw)|exact (G2 cell lo h Hi Hrect Huw)]. }
  destruct (L cells (fun c H => H)) as (d & Hdel). exists d. split; [apply cond_pos|].
  intros [u w] (cell & lo & h & Hc & Hrect & Huw) Hu Hw. exact (Hdel u w Hu Hw cell lo h Hc Hrect Huw).
Qed.

End OneField.
End RectField.
