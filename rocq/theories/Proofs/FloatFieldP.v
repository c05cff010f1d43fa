(** Fields on rectangular meshes in binary64: values and gradients (C58). *)
From Coq Require Import ZArith List Bool Lia ZifyBool Reals Lra Psatz.
From Coq Require Import Floats.SpecFloat.
From Flocq Require Import Core BinarySingleNaN.
From Verif Require Import Model.Outcome Model.Num Model.NumInst Model.PNDArray Model.Bin Model.Interpolator Model.Quad Model.Mesh Model.PField.
From Verif Require Import Spec.Funcs Spec.Tensor Spec.NDHistory Spec.Grid Spec.Shape Spec.Fields Spec.Rounding.
From Verif Require Import Proofs.OutcomeP Proofs.PNDArrayP Proofs.BinP Proofs.MeshReadP Proofs.MeshRP Proofs.RectP Proofs.FieldP Proofs.FieldSafeP Proofs.LocalP Proofs.BinFloatP.
From Verif Require Import Proofs.RoundP Proofs.FloatShapeP Proofs.FloatAxisP Proofs.FloatMeshP Proofs.SlopeP.
Import ListNotations.
Local Open Scope Z_scope.

Local Notation ip := (interp FOps (c2 FOps)).
Local Notation SF := (scalar_field FOps).

(** ** One axis *)

Definition within_pole (ax : axis FOps) (p : pole) (lo hi x : R) : Prop :=
  cellnum ax (pole_lo p lo hi) <= cellnum ax x <= cellnum ax (pole_hi p lo hi).

(** The corner at this end is registered in the bin of [x] and accepts it. *)
Definition taken (ax : axis FOps) (p : pole) (lo hi x : R) : Prop :=
  within_pole ax p lo hi x /\ claims lo hi (rne (pole_dist p lo hi x)).

Lemma axis_taken : forall l ax lo hi x, sound_axis l ax -> side l lo hi -> fmt x -> (lo <= x <= hi)%R -> exists p, taken ax p lo hi x.
Proof.
  intros l ax lo hi x Hax ((F1 & F2 & L & _) & _) Fx Hx.
  destruct (side_claimed lo hi F1 F2 L x Fx Hx) as [[A B]|[A B]]; [exists Low|exists High]; (split; [split; eapply cellnum_le; eauto; cbn [pole_lo pole_hi]; lra|exact B]).
Qed.

(** Next to the side. *)
Definition near (lo hi x : R) : Prop := (lo - 2 * eta * (hi - lo) <= x <= hi + 2 * eta * (hi - lo))%R.

Lemma near_sides : forall lo hi p x, near lo hi x -> near_side lo hi p x.
Proof. intros lo hi p x [A B]. unfold near_side. destruct p; cbn [pole_dist]; lra. Qed.

Lemma taken_near : forall l ax p lo hi x, side l lo hi -> fmt x -> taken ax p lo hi x -> near lo hi x.
Proof.
  intros l ax p lo hi x ((F1 & F2 & L & _) & _) Fx [_ C]. pose proof eta_pos as T. unfold near.
  assert (D : dist (pole_dist p lo hi x) (rne (pole_dist p lo hi x))) by (destruct p; cbn [pole_dist]; apply rne_sub_err; auto).
  pose proof (claims_far lo hi F1 F2 L _ C) as A. pose proof (claims_near lo hi F1 F2 L _ _ D C) as B.
  assert (0 <= 2 * eta * (hi - lo))%R by nra. destruct p; cbn [pole_dist] in A, B; lra.
Qed.

(** The other end's corner is registered too, or its factor is negligible. *)
Lemma taken_other : forall l ax p0 lo hi x p, sound_axis l ax -> side l lo hi -> fmt x -> taken ax p0 lo hi x ->
  within_pole ax p lo hi x \/ (Rabs (1 - pole_dist p lo hi x / (hi - lo)) <= 5 * u)%R.
Proof.
  intros l ax p0 lo hi x p Hax Hs Fx Ht. pose proof (taken_near _ _ _ _ _ _ Hs Fx Ht) as [N1 N2].
  destruct Hs as ((F1 & F2 & L & _) & _). destruct Ht as [Hw C].
  pose proof (claims_far lo hi F1 F2 L _ C) as A. pose proof u_pos as U0. pose proof eta_small as T. pose proof eta_pos as T0.
  pose proof (top_close lo hi F1 F2 L) as TC. pose proof (bottom_close lo hi F1 F2 L) as BC. rabs TC. rabs BC.
  assert (D : (0 < hi - lo)%R) by lra.
  assert (TD : (eta * (hi - lo) <= u * (hi - lo))%R) by (apply Rmult_le_compat_r; lra).
  assert (K : forall e, (hi - lo - 4 * u * (hi - lo) <= e <= hi - lo + 2 * eta * (hi - lo))%R -> (Rabs (1 - e / (hi - lo)) <= 5 * u)%R).
  { intros e He. replace (1 - e / (hi - lo))%R with ((hi - lo - e) * / (hi - lo))%R by (field; lra).
    rewrite Rabs_mult, (Rabs_pos_eq (/ (hi - lo))) by (left; apply Rinv_0_lt_compat; lra).
    apply Rmult_le_reg_r with (hi - lo)%R; [exact D|]. rewrite Rmult_assoc, Rinv_l, Rmult_1_r by lra. apply Rabs_le. nra. }
  destruct p0, p; auto; cbn [pole_dist] in *.
  - destruct (Rle_or_lt (rne (hi - rne (hi - lo))) x) as [G|G].
    + left. split; eapply cellnum_le; eauto; cbn [pole_lo pole_hi]; lra.
    + right. apply K. lra.
  - destruct (Rle_or_lt x (rne (lo + rne (hi - lo)))) as [G|G].
    + left. split; eapply cellnum_le; eauto; cbn [pole_lo pole_hi]; lra.
    + right. apply K. lra.
Qed.

(** ** The sum of an evaluation *)

Definition addc (q : quantity) (r : c2 FOps) (data : list f64) (s : f64) (it : ip) : f64 :=
  match ask (K := quad_kind FOps) q r it, vget data (it_node it) with
  | Ok w, Ok v => nadd FOps s (nmul FOps w v)
  | _, _ => s
  end.

Lemma wsum_elem : forall q r (data : list f64) el (its : list ip) ws vs s, Forall (fun x : f64 => fin x) data -> not_minus_zero s ->
  Forall2 (fun it w => weigh (K := quad_kind FOps) (ask q r) el it = Ok w) its ws -> Forall2 (fun it v => vget data (it_node it) = Ok v) its vs ->
  wsum (F := SF) s (combine ws vs) = fold_left (addc q r data) (filter (fun it => it_elem it =? el) its) s.
Proof.
  intros q r data el its ws vs s Fd. revert ws vs s. induction its as [|it its IH]; intros ws vs s Hs Hw Hv; inversion Hw; subst; inversion Hv; subst; [reflexivity|].
  unfold wsum in *. cbn [combine fold_left filter].
  match goal with H : weigh _ _ it = Ok ?w |- _ => rename H into Ew; rename w into w0 end.
  match goal with H : vget data (it_node it) = Ok ?w |- _ => rename H into Ev; rename w into v0 end.
  assert (Fv : fin v0) by (rewrite Forall_forall in Fd; apply Fd; eapply vget_in; eauto).
  unfold weigh in Ew. match type of Ew with (if ?b then _ else _) = _ => change b with (it_elem it =? el) in Ew end. destruct (it_elem it =? el) eqn:Ee.
  - cbn [fold_left]. 
    replace (addc q r data s it) with (nadd FOps s (nmul FOps w0 v0)) by (unfold addc; rewrite Ev; match type of Ew with ?a = _ => change (nadd FOps s (nmul FOps w0 v0) = match a with Ok w => nadd FOps s (nmul FOps w v0) | _ => s end) end; rewrite Ew; reflexivity).
    apply IH; auto. apply (f64_not_minus_zero s); exact Hs.
  - injection Ew as <-. match goal with |- fold_left ?f ?l ?a = _ => change a with (nadd FOps s (nmul FOps (nofZ FOps 0) v0) : f64) end.
    rewrite f64_skip by assumption. apply IH; auto.
Qed.

Lemma fold_filter : forall (A B : Type) (f : A -> B -> A) (g : B -> bool) l s,
  fold_left f (filter g l) s = fold_left (fun s x => if g x then f s x else s) l s.
Proof. intros A B f g l. induction l as [|x l IH]; intros s; simpl; auto. destruct (g x); simpl; auto. Qed.

(** ** Corners *)

Lemma corner_parts : forall i cell lo h k it, corner_it i cell lo h k it ->
  In k corners2 /\ exists n (p w : c2 FOps), vget cell k = Ok n /\ it = quad_values FOps n i p w k /\
    quad_sign FOps k = (pole_sign (xpole k), pole_sign (ypole k)) /\
    fin (fst p) /\ fin (snd p) /\ fin (fst w) /\ fin (snd w) /\
    B2R (fst p : f64) = pole_at (xpole k) (fst lo) (fst lo + fst h)%R /\ B2R (snd p : f64) = pole_at (ypole k) (snd lo) (snd lo + snd h)%R /\
    B2R (fst w : f64) = rne (fst lo + fst h - fst lo) /\ B2R (snd w : f64) = rne (snd lo + snd h - snd lo).
Proof.
  intros i cell lo h k it (Hk & n & p & w & En & [Fpx Fpy] & Vp & [Fwx Fwy] & Vw & ->). split; [exact Hk|].
  rewrite corner_poles in Vp. exists n, p, w. split; [exact En|]. split; [reflexivity|]. split; [exact (sign_poles k Hk)|].
  repeat split; auto.
  - exact (f_equal fst Vp).
  - exact (f_equal snd Vp).
  - etransitivity; [exact (f_equal fst Vw)|]. exact (f_equal (fun t : R => rne t) (side_len (fst lo) (fst h))).
  - etransitivity; [exact (f_equal snd Vw)|]. exact (f_equal (fun t : R => rne t) (side_len (snd lo) (snd h))).
Qed.

Lemma side_1000 : forall l lo hi, side l lo hi ->
  fmt lo /\ fmt hi /\ (lo < hi)%R /\ (Rabs lo <= bpow radix2 1000)%R /\ (Rabs hi <= bpow radix2 1000)%R.
Proof. intros l lo hi ((A & B & C & D & E) & _). repeat split; auto using bpow_900_1000. Qed.

Lemma corner_range : forall lx ly i cell lo h k it (r : c2 FOps), side lx (fst lo) (fst lo + fst h)%R -> side ly (snd lo) (snd lo + snd h)%R ->
  corner_it i cell lo h k it -> finite_point r -> (Rabs (B2R (fst r : f64)) <= bpow radix2 1001)%R -> (Rabs (B2R (snd r : f64)) <= bpow radix2 1001)%R ->
  (it_range it r = true <-> claims (fst lo) (fst lo + fst h) (rne (pole_dist (xpole k) (fst lo) (fst lo + fst h) (B2R (fst r : f64)))) /\
                            claims (snd lo) (snd lo + snd h) (rne (pole_dist (ypole k) (snd lo) (snd lo + snd h) (B2R (snd r : f64))))).
Proof.
  intros lx ly i cell lo h k it r Sx Sy Hc [Frx Fry] Rx Ry.
  destruct (corner_parts _ _ _ _ _ _ Hc) as (_ & n & p & w & _ & -> & Es & Fpx & Fpy & Fwx & Fwy & Vpx & Vpy & Vwx & Vwy).
  destruct (side_1000 _ _ _ Sx) as (A1 & A2 & A3 & A4 & A5). destruct (side_1000 _ _ _ Sy) as (B1 & B2 & B3 & B4 & B5).
  pose proof (range64 _ _ A1 A2 A3 A4 A5 (fst p) (fst w) (fst r) (xpole k) Fpx Vpx Fwx Vwx Frx Rx) as GX.
  pose proof (range64 _ _ B1 B2 B3 B4 B5 (snd p) (snd w) (snd r) (ypole k) Fpy Vpy Fwy Vwy Fry Ry) as GY.
  unfold quad_values. cbn [it_range]. unfold quad_in_range. rewrite Es. cbn [fst snd]. rewrite andb_true_iff. 
  exact (conj (fun H => conj (proj1 GX (proj1 H)) (proj1 GY (proj2 H))) (fun H => conj (proj2 GX (proj1 H)) (proj2 GY (proj2 H)))).
Qed.

Lemma corner_covers : forall lx ly ax ay i cell lo h k it (r : c2 FOps), sound_axis lx ax -> sound_axis ly ay ->
  side lx (fst lo) (fst lo + fst h)%R -> side ly (snd lo) (snd lo + snd h)%R -> corner_it i cell lo h k it ->
  (covers (K := quad_kind FOps) [ax_min ax; ax_min ay] [ax_incr ax; ax_incr ay] [cellnum ax (B2R (fst r : f64)); cellnum ay (B2R (snd r : f64))] it = true <->
   within_pole ax (xpole k) (fst lo) (fst lo + fst h)%R (B2R (fst r : f64)) /\ within_pole ay (ypole k) (snd lo) (snd lo + snd h)%R (B2R (snd r : f64))).
Proof.
  intros lx ly ax ay i cell lo h k it r Hx Hy Hsx Hsy Hk.
  destruct (corner_box _ _ _ _ _ _ _ _ Hsx Hsy Hk) as ((A1 & A2) & (B1 & B2) & (C1 & C2) & (D1 & D2)).
  destruct (pole_box _ _ _ (xpole k) Hsx) as (P1 & P2 & _). destruct (pole_box _ _ _ (ypole k) Hsy) as (Q1 & Q2 & _).
  pose proof (eq_ind_r (near_axis _) P1 A2) as P1'. pose proof (eq_ind_r (near_axis _) P2 C2) as P2'.
  pose proof (eq_ind_r (near_axis _) Q1 B2) as Q1'. pose proof (eq_ind_r (near_axis _) Q2 D2) as Q2'.
  destruct (binned64 _ _ _ _ (fst (it_min it)) (snd (it_min it)) Hx Hy A1 B1 P1' Q1') as [_ G2].
  destruct (binned64 _ _ _ _ (fst (it_max it)) (snd (it_max it)) Hx Hy C1 D1 P2' Q2') as [_ G4].
  unfold covers. cbn [kcoords quad_kind].
  refine (eq_ind_r (fun v => boxb v _ _ = true <-> _) _ G2). refine (eq_ind_r (fun v => boxb _ v _ = true <-> _) _ G4).
  assert (A2' : @eq R (B2R (fst (it_min it) : f64)) (pole_lo (xpole k) (fst lo) (fst lo + fst h)%R)) by exact A2.
  assert (B2' : @eq R (B2R (snd (it_min it) : f64)) (pole_lo (ypole k) (snd lo) (snd lo + snd h)%R)) by exact B2.
  assert (C2' : @eq R (B2R (fst (it_max it) : f64)) (pole_hi (xpole k) (fst lo) (fst lo + fst h)%R)) by exact C2.
  assert (D2' : @eq R (B2R (snd (it_max it) : f64)) (pole_hi (ypole k) (snd lo) (snd lo + snd h)%R)) by exact D2.
  rewrite A2', B2', C2', D2'. cbn [boxb]. unfold within_pole. rewrite !andb_true_iff, !Z.leb_le. tauto.
Qed.

Lemma corner_of : forall px py : pole, exists k, In k corners2 /\ xpole k = px /\ ypole k = py.
Proof. intros [] []; [exists 0|exists 3|exists 1|exists 2]; simpl; auto 8. Qed.

Lemma in_rect_between : forall lo h r, positive2 h -> in_rect lo h r -> (fst lo <= fst r <= fst lo + fst h)%R /\ (snd lo <= snd r <= snd lo + snd h)%R.
Proof. intros lo h r [P1 P2] [(s & Hs & ->) (t & Ht & ->)]. nra. Qed.


Lemma near_900 : forall l ax x, sound_axis l ax -> near_axis l x -> (Rabs x <= bpow radix2 1001)%R.
Proof.
  intros l ax x (g & _ & _ & _ & _ & (_ & _ & _ & _ & La & Lz) & [_ Lo] & [_ Hi] & _) (p & q & Ip & Iq & Hpq & Hx).
  pose proof (Lo p Ip). pose proof (Hi q Iq). rabs La. rabs Lz. pose proof u_small. pose proof u_pos.
  assert (B : (bpow radix2 901 = 2 * bpow radix2 900)%R) by (change 2%R with (bpow radix2 1); rewrite <- bpow_plus; reflexivity).
  assert (C : (bpow radix2 901 <= bpow radix2 1001)%R) by (apply bpow_le; lia).
  assert (4 * u * (q - p) <= 4 * / 1024 * (q - p))%R by (apply Rmult_le_compat_r; lra).
  apply Rabs_le. lra.
Qed.

(** What an evaluation at a point of the region adds up. *)
Lemma eval_block : forall pts cells ax ay m (data : list f64) p0 (r : c2 FOps), meshed64 pts cells ax ay m ->
  field_on (F := SF) m data (nofZ FOps 0) p0 -> Forall (fun x : f64 => fin x) data ->
  finite_point r -> in_mesh2 (map point_value pts) cells (point_value r) ->
  exists i cell lo h blk px py, In cell cells /\ cell_rect (map point_value pts) cell lo h /\ cell_its i cell lo h blk /\
    taken ax px (fst lo) (fst lo + fst h)%R (B2R (fst r : f64)) /\ taken ay py (snd lo) (snd lo + snd h)%R (B2R (snd r : f64)) /\
    forall q hist m' p', on_axes 2 q -> field_history (m, p0) hist (m', p') ->
      exists s, field_eval (K := quad_kind FOps) (F := SF) q r (m', p') = RRet s
        (fold_left (fun s it => if covers (K := quad_kind FOps) [ax_min ax; ax_min ay] [ax_incr ax; ax_incr ay]
            [cellnum ax (B2R (fst r : f64)); cellnum ay (B2R (snd r : f64))] it then addc q r data s it else s) blk (nofZ FOps 0)).
Proof.
  intros pts cells ax ay m data p0 r Hm Hon Fd Fr (cell1 & lo1 & h1 & Hin1 & Hc1 & Hr1).
  pose proof (m64_x _ _ _ _ _ Hm) as Hx. pose proof (m64_y _ _ _ _ _ Hm) as Hy. pose proof (m64_small _ _ _ _ _ Hm) as Sm.
  pose proof (in_rect_between _ _ _ (proj1 Hc1) Hr1) as [Bx By]. cbn [point_value fst snd] in Bx, By. unfold value in Bx, By.
  destruct (rect_sides _ _ _ _ Sm Hc1) as [S1x S1y].
  destruct Fr as [Frx Fry].
  assert (Nx : near_axis (map fst (map point_value pts)) (B2R (fst r : f64))).
  { destruct S1x as ((_ & _ & L & _) & I1 & I2). exists (fst lo1), (fst lo1 + fst h1)%R. pose proof u_pos.
    assert (0 <= u * (fst lo1 + fst h1 - fst lo1))%R by (apply Rmult_le_pos; lra). repeat split; auto; lra. }
  assert (Ny : near_axis (map snd (map point_value pts)) (B2R (snd r : f64))).
  { destruct S1y as ((_ & _ & L & _) & I1 & I2). exists (snd lo1), (snd lo1 + snd h1)%R. pose proof u_pos.
    assert (0 <= u * (snd lo1 + snd h1 - snd lo1))%R by (apply Rmult_le_pos; lra). repeat split; auto; lra. }
  pose proof (near_900 _ _ _ Hx Nx) as Rx. pose proof (near_900 _ _ _ Hy Ny) as Ry.
  set (t := [cellnum ax (B2R (fst r : f64)); cellnum ay (B2R (snd r : f64))]).
  set (cov := covers (K := quad_kind FOps) [ax_min ax; ax_min ay] [ax_incr ax; ax_incr ay] t).
  (* the bin of r *)
  destruct (binned64 _ _ _ _ (fst r) (snd r) Hx Hy Frx Fry Nx Ny) as [(V1 & V2 & V3) V4].
  match type of V4 with ?a = ?b => assert (V4' : a = t) by exact V4 end. rewrite V4' in V2, V3.
  pose proof (view_ok _ _ _ _ (me_bin m) _ _ (m64_inv _ _ _ _ _ Hm) V1 V2 V3) as V.
  rewrite (m64_view _ _ _ _ _ Hm t V3) in V. fold cov in V.
  (* somebody claims it *)
  assert (Hsome : exists it, In it (filter cov (me_interp m)) /\ it_range it r = true).
  { destruct (built_cell_its _ _ _ _ _ (m64_built _ _ _ _ _ Hm) Hin1) as (e & lo' & h' & blk & Hc' & B & Hblk).
    destruct (cell_rect_fun _ _ _ _ _ _ Hc1 Hc') as [<- <-].
    destruct (axis_taken _ _ _ _ _ Hx S1x (f64_fmt (fst r)) Bx) as (px & Tx1 & Tx2).
    destruct (axis_taken _ _ _ _ _ Hy S1y (f64_fmt (snd r)) By) as (py & Ty1 & Ty2).
    destruct (corner_of px py) as (k & Hk & <- & <-).
    destruct (Forall2_in_l _ _ _ _ _ _ B Hk) as (it & Hit & Hcor).
    exists it. split.
    - apply filter_In. split; [auto|]. apply (proj2 (corner_covers _ _ ax ay _ _ _ _ _ _ r Hx Hy S1x S1y Hcor)). split; assumption.
    - apply (proj2 (corner_range _ _ _ _ _ _ _ _ r S1x S1y Hcor (conj Frx Fry) Rx Ry)). split; assumption. }
  destruct (find (fun it => it_range it r) (filter cov (me_interp m))) as [it0|] eqn:Ef.
  2:{ destruct Hsome as (it & Hit & Hr). pose proof (find_none _ _ Ef it Hit) as N. cbn beta in N. match type of N with ?a = _ => match type of Hr with ?b = _ => change b with a in Hr end end. rewrite N in Hr. discriminate Hr. }
  destruct (find_some _ _ Ef) as [Hin0 Hr0]. apply filter_In in Hin0. destruct Hin0 as [Hin0 Hcov0].
  destruct (built_block _ _ _ _ _ (m64_built _ _ _ _ _ Hm) Hin0) as (_ & cell & lo & h & Hcell & Hc & Hits).
  destruct (rect_sides _ _ _ _ Sm Hc) as [Hsx Hsy].
  set (blk := filter (fun j => it_elem j =? it_elem it0) (me_interp m)) in *.
  assert (Hb0 : In it0 blk) by (apply filter_In; split; [exact Hin0|apply Z.eqb_refl]).
  destruct (Forall2_in_r _ _ _ _ _ _ Hits Hb0) as (k0 & _ & Hcor0).
  apply (proj1 (corner_covers _ _ ax ay _ _ _ _ _ _ r Hx Hy Hsx Hsy Hcor0)) in Hcov0.
  apply (proj1 (corner_range _ _ _ _ _ _ _ _ r Hsx Hsy Hcor0 (conj Frx Fry) Rx Ry)) in Hr0.
  destruct Hcov0 as [W1 W2]. destruct Hr0 as [C1 C2].
  exists (it_elem it0), cell, lo, h, blk, (xpole k0), (ypole k0).
  split; [exact Hcell|]. split; [exact Hc|]. split; [exact Hits|]. split; [split; assumption|]. split; [split; assumption|].
  intros q hist m' p' Hq Hh.
  destruct (field_on_ok _ _ _ _ (quad_answering FOps) Hon) as [Hok Hfk].
  pose proof (history_ok _ _ _ _ _ _ Hok Hfk Hh) as Hfk'.
  pose proof (field_eval_spec (F := SF) m data (nofZ FOps 0) m' p' q r Hok Hfk' Hq) as S.
  match type of V with ?a = _ => match type of S with match ?b with _ => _ end => change b with a in S end end.
  rewrite V in S. destruct S as (m2 & p2 & a & S & _ & R & _). exists (m2, p2). rewrite S. f_equal.
  unfold result_is in R. match type of Ef with ?x = _ => match type of R with match ?y with _ => _ end => change y with x in R end end.
  rewrite Ef in R. destruct R as (ws & vs & R1 & R2 & ->).
  assert (Ed : pf_field p' = data) by exact (fk_field _ _ _ _ Hfk').
  assert (Ez : pf_zero p' = nofZ FOps 0) by exact (fk_zero _ _ _ _ Hfk').
  rewrite Ed in R2. rewrite Ez.
  etransitivity; [exact (wsum_elem q r data (it_elem it0) (filter cov (me_interp m)) ws vs (nofZ FOps 0) Fd f64_zero_plain R1 R2)|].
  rewrite filter_filter. fold blk. apply fold_filter.
Qed.

(** ** Adding four corners *)

Local Open Scope R_scope.

Definition corner_term (cov : ip -> bool) (q : quantity) (r : c2 FOps) (data : list f64) (cw gw : R) (it : ip) (t v : R) : Prop :=
  exists (w x : f64), ask (K := quad_kind FOps) q r it = Ok w /\ fin w /\ vget data (it_node it) = Ok x /\ fin x /\ B2R x = v /\
    Rabs (B2R w) <= gw /\ (cov it = true -> Rabs (B2R w - t) <= cw) /\ (cov it = false -> Rabs t <= cw).

Definition one_step (cov : ip -> bool) (q : quantity) (r : c2 FOps) (data : list f64) (s : f64) (it : ip) : f64 :=
  if cov it then addc q r data s it else s.

Lemma rne_plus_0 : forall x, fmt x -> rne (x + 0) = x.
Proof. intros x F. rewrite Rplus_0_r. apply rne_id. exact F. Qed.

Lemma step64 : forall cov q r data cw gw it t v, 0 <= cw -> 0 <= gw -> gw * Rabs v <= bpow radix2 1002 -> corner_term cov q r data cw gw it t v ->
  exists x, fmt x /\ Rabs (x - t * v) <= (cw + u * gw) * Rabs v + eta /\ Rabs x <= (1 + u) * gw * Rabs v + eta /\ Rabs x <= bpow radix2 1002 /\
    forall s : f64, fin s -> Rabs (B2R s) <= bpow radix2 1008 ->
      fin (one_step cov q r data s it) /\ B2R (one_step cov q r data s it) = rne (B2R s + x).
Proof.
  intros cov q r data cw gw it t v Hcw Hgw Hm (w & f & Ew & Fw & Ef & Ff & Vf & Gw & H1 & H0).
  pose proof u_pos as U0. pose proof eta_pos as T0. pose proof (Rabs_pos v) as V0.
  assert (P10 : bpow radix2 1010 = 4 * bpow radix2 1008) by (change 4 with (bpow radix2 2); rewrite <- bpow_plus; reflexivity).
  assert (P6 : bpow radix2 1008 = 64 * bpow radix2 1002) by (change 64 with (bpow radix2 6); rewrite <- bpow_plus; reflexivity).
  pose proof (bpow_gt_0 radix2 1002) as P0.
  unfold one_step. destruct (cov it).
  - specialize (H1 eq_refl).
    assert (B : Rabs (B2R w * B2R f) <= bpow radix2 1002).
    { rewrite Rabs_mult, Vf. eapply Rle_trans; [|exact Hm]. apply Rmult_le_compat_r; auto. }
    destruct (mul64 w f 1002 ltac:(lia) Fw Ff B) as [Fm Em].
    destruct (term_close (B2R w) t v cw gw Hcw H1 Gw) as [A1 A2].
    exists (rne (B2R w * v)). split; [apply rne_fmt|]. split; [exact A1|]. split; [exact A2|].
    assert (Bx : Rabs (rne (B2R w * v)) <= bpow radix2 1002) by (apply rne_le_bpow; [lia|rewrite <- Vf; exact B]).
    split; [exact Bx|]. intros s Fs Bs.
    unfold addc. rewrite Ef. match type of Ew with ?a = _ => match goal with |- context [match ?b with Ok _ => _ | _ => _ end] => change b with a end end. rewrite Ew.
    rewrite <- Vf, <- Em in Bx |- *. apply (add64 s (nmul FOps w f) 1010); auto; [lia|].
    eapply Rle_trans; [apply Rabs_triang|]. lra.
  - specialize (H0 eq_refl). exists 0. split; [apply generic_format_0|].
    assert (A : Rabs (0 - t * v) <= cw * Rabs v).
    { rewrite Rminus_0_l, Rabs_Ropp, Rabs_mult. apply Rmult_le_compat_r; auto. }
    assert (0 <= u * gw * Rabs v) by (apply Rmult_le_pos; [apply Rmult_le_pos; lra|lra]).
    assert (0 <= gw * Rabs v) by (apply Rmult_le_pos; lra).
    split; [lra|]. rewrite Rabs_R0. split; [lra|]. split; [lra|].
    intros s Fs Bs. split; [exact Fs|]. symmetry. apply rne_plus_0. apply f64_fmt.
Qed.

Lemma block64 : forall cov q r data cw gw it0 it1 it2 it3 t0 t1 t2 t3 v0 v1 v2 v3, 0 <= cw -> 0 <= gw ->
  gw * Rabs v0 <= bpow radix2 1002 -> gw * Rabs v1 <= bpow radix2 1002 -> gw * Rabs v2 <= bpow radix2 1002 -> gw * Rabs v3 <= bpow radix2 1002 ->
  corner_term cov q r data cw gw it0 t0 v0 -> corner_term cov q r data cw gw it1 t1 v1 ->
  corner_term cov q r data cw gw it2 t2 v2 -> corner_term cov q r data cw gw it3 t3 v3 ->
  fin (fold_left (one_step cov q r data) [it0; it1; it2; it3] (nofZ FOps 0)) /\
  Rabs (B2R (fold_left (one_step cov q r data) [it0; it1; it2; it3] (nofZ FOps 0)) - (t0 * v0 + t1 * v1 + t2 * v2 + t3 * v3)) <=
    (cw + u * gw + 4 * u * ((1 + u) * gw)) * (Rabs v0 + Rabs v1 + Rabs v2 + Rabs v3) + 8 * eta.
Proof.
  intros cov q r data cw gw it0 it1 it2 it3 t0 t1 t2 t3 v0 v1 v2 v3 Hcw Hgw M0 M1 M2 M3 C0 C1 C2 C3.
  destruct (step64 _ _ _ _ _ _ _ _ _ Hcw Hgw M0 C0) as (x0 & F0 & A0 & B0 & D0 & S0).
  destruct (step64 _ _ _ _ _ _ _ _ _ Hcw Hgw M1 C1) as (x1 & F1 & A1 & B1 & D1 & S1).
  destruct (step64 _ _ _ _ _ _ _ _ _ Hcw Hgw M2 C2) as (x2 & F2 & A2 & B2 & D2 & S2).
  destruct (step64 _ _ _ _ _ _ _ _ _ Hcw Hgw M3 C3) as (x3 & F3 & A3 & B3 & D3 & S3).
  pose proof u_pos as U0. pose proof u_small as U. pose proof eta_pos as T0.
  destruct (sum_close x0 x1 x2 x3 (t0 * v0) (t1 * v1) (t2 * v2) (t3 * v3) (Rabs v0) (Rabs v1) (Rabs v2) (Rabs v3) (cw + u * gw) ((1 + u) * gw) eta
    F0 F1 F2 F3 (Rabs_pos _) (Rabs_pos _) (Rabs_pos _) (Rabs_pos _) ltac:(apply Rmult_le_pos; lra) ltac:(lra) A0 A1 A2 A3 B0 B1 B2 B3) as (E & G1 & G2).
  assert (P6 : bpow radix2 1008 = 64 * bpow radix2 1002) by (change 64 with (bpow radix2 6); rewrite <- bpow_plus; reflexivity).
  assert (P0 : eta <= bpow radix2 1002) by (apply bpow_le; lia).
  assert (G : 2 * ((1 + u) * gw * (Rabs v0 + Rabs v1 + Rabs v2 + Rabs v3) + 4 * eta) <= bpow radix2 1008).
  { assert ((1 + u) * (gw * (Rabs v0 + Rabs v1 + Rabs v2 + Rabs v3)) <= 2 * (4 * bpow radix2 1002)).
    { apply Rmult_le_compat; try lra. apply Rmult_le_pos; [lra|].
      pose proof (Rabs_pos v0). pose proof (Rabs_pos v1). pose proof (Rabs_pos v2). pose proof (Rabs_pos v3). lra. }
    lra. }
  cbn [fold_left].
  destruct zero64 as [Z1 Z2].
  destruct (S0 (nofZ FOps 0) Z1) as [K0 L0]. { rewrite Z2, Rabs_R0. apply bpow_ge_0. }
  rewrite Z2, Rplus_0_l, (rne_id x0 F0) in L0.
  destruct (S1 _ K0) as [K1 L1]. { rewrite L0. lra. } rewrite L0 in L1.
  destruct (S2 _ K1) as [K2 L2]. { rewrite L1. lra. } rewrite L1 in L2.
  destruct (S3 _ K2) as [K3 L3]. { rewrite L2. lra. } rewrite L2 in L3.
  split; [exact K3|]. rewrite L3. exact E.
Qed.

(** ** Weights *)

(** The factor a corner contributes along one axis. *)
Definition factor (p : pole) (lo hi x : R) : R := 1 - pole_dist p lo hi x / (hi - lo).

Definition fx64 (p w r : c2 FOps) (k : Z) : f64 :=
  nsub FOps (nofZ FOps 1) (ndiv FOps (nmul FOps (pole_sign (xpole k)) (nsub FOps (fst r) (fst p))) (fst w)).
Definition fy64 (p w r : c2 FOps) (k : Z) : f64 :=
  nsub FOps (nofZ FOps 1) (ndiv FOps (nmul FOps (pole_sign (ypole k)) (nsub FOps (snd r) (snd p))) (snd w)).

Definition factor_ok (f : f64) (p : pole) (lo hi x : R) : Prop :=
  fin f /\ Rabs (B2R f - factor p lo hi x) <= 6 * u /\ Rabs (factor p lo hi x) <= 1 + u.

Lemma factor_size : forall f p lo hi x, factor_ok f p lo hi x -> Rabs (B2R f) <= 1 + 7 * u.
Proof.
  intros f p lo hi x (_ & A & B). replace (B2R f) with (factor p lo hi x + (B2R f - factor p lo hi x)) by ring.
  eapply Rle_trans; [apply Rabs_triang|]. lra.
Qed.

Lemma value_weight : forall fx fy p1 lo1 hi1 x p2 lo2 hi2 y, factor_ok fx p1 lo1 hi1 x -> factor_ok fy p2 lo2 hi2 y ->
  fin (nmul FOps fx fy) /\ Rabs (B2R (nmul FOps fx fy : f64) - factor p1 lo1 hi1 x * factor p2 lo2 hi2 y) <= 14 * u /\
  Rabs (B2R (nmul FOps fx fy : f64)) <= 1 + 17 * u.
Proof.
  intros fx fy p1 lo1 hi1 x p2 lo2 hi2 y Hx Hy. pose proof (factor_size _ _ _ _ _ Hx) as Sx. pose proof (factor_size _ _ _ _ _ Hy) as Sy.
  destruct Hx as (Fx & Ax & Bx). destruct Hy as (Fy & Ay & By). pose proof u_pos as U0. pose proof u_small as U.
  assert (B : Rabs (B2R fx * B2R fy) <= bpow radix2 2).
  { rewrite Rabs_mult. change (bpow radix2 2) with 4. replace 4 with (2 * 2) by ring.
    apply Rmult_le_compat; try apply Rabs_pos; lra. }
  destruct (mul64 fx fy 2 ltac:(lia) Fx Fy B) as [F E].
  pose proof (product_close _ _ _ _ Ax Bx Ay By) as P.
  split; [exact F|]. rewrite E. split; [exact P|].
  set (t := factor p1 lo1 hi1 x * factor p2 lo2 hi2 y) in *.
  assert (T : Rabs t <= 1 + 3 * u).
  { unfold t. rewrite Rabs_mult. apply Rle_trans with ((1 + u) * (1 + u)); [apply Rmult_le_compat; try apply Rabs_pos; lra|nra]. }
  replace (rne (B2R fx * B2R fy)) with (t + (rne (B2R fx * B2R fy) - t)) by ring.
  eapply Rle_trans; [apply Rabs_triang|]. lra.
Qed.

Lemma corner_factors : forall lx ly i cell lo h k it (r : c2 FOps), side lx (fst lo) (fst lo + fst h) -> side ly (snd lo) (snd lo + snd h) ->
  corner_it i cell lo h k it -> finite_point r -> Rabs (B2R (fst r : f64)) <= bpow radix2 1001 -> Rabs (B2R (snd r : f64)) <= bpow radix2 1001 ->
  near (fst lo) (fst lo + fst h) (B2R (fst r : f64)) -> near (snd lo) (snd lo + snd h) (B2R (snd r : f64)) ->
  exists n p w, vget cell k = Ok n /\ it = quad_values FOps n i p w k /\ quad_sign FOps k = (pole_sign (xpole k), pole_sign (ypole k)) /\
    fin (fst w) /\ fin (snd w) /\ B2R (fst w : f64) = rne (fst lo + fst h - fst lo) /\ B2R (snd w : f64) = rne (snd lo + snd h - snd lo) /\
    factor_ok (fx64 p w r k) (xpole k) (fst lo) (fst lo + fst h) (B2R (fst r : f64)) /\
    factor_ok (fy64 p w r k) (ypole k) (snd lo) (snd lo + snd h) (B2R (snd r : f64)).
Proof.
  intros lx ly i cell lo h k it r Sx Sy Hc [Frx Fry] Rx Ry Nx Ny.
  destruct (corner_parts _ _ _ _ _ _ Hc) as (_ & n & p & w & En & -> & Es & Fpx & Fpy & Fwx & Fwy & Vpx & Vpy & Vwx & Vwy).
  destruct (side_1000 _ _ _ Sx) as (A1 & A2 & A3 & A4 & A5). destruct (side_1000 _ _ _ Sy) as (B1 & B2 & B3 & B4 & B5).
  exists n, p, w. split; [exact En|]. split; [reflexivity|]. split; [exact Es|]. repeat (split; [assumption|]).
  split.
  - exact (factor64 _ _ A1 A2 A3 A4 A5 (fst p) (fst w) (fst r) (xpole k) Fpx Vpx Fwx Vwx Frx Rx (near_sides _ _ _ _ Nx)).
  - exact (factor64 _ _ B1 B2 B3 B4 B5 (snd p) (snd w) (snd r) (ypole k) Fpy Vpy Fwy Vwy Fry Ry (near_sides _ _ _ _ Ny)).
Qed.

(** The nodal value at a corner. *)
Lemma corner_data : forall i cell lo h k it (data : list f64) v, corner_it i cell lo h k it ->
  cell_data (map value data) cell corners2 v -> Forall (fun x : f64 => fin x) data ->
  exists x : f64, vget data (it_node it) = Ok x /\ fin x /\ B2R x = v k.
Proof.
  intros i cell lo h k it data v Hc Hv Fd. destruct (corner_parts _ _ _ _ _ _ Hc) as (Hk & n & p & w & En & -> & _).
  destruct (Hv k Hk) as (n' & En' & E). rewrite En in En'. injection En' as <-.
  apply vget_map in E. destruct E as (x & E & Ex). exists x. split; [exact E|]. split; [|exact Ex].
  rewrite Forall_forall in Fd. apply Fd. eapply vget_in; eauto.
Qed.

(** A point of the region, and the cell used for it. *)
Record used_cell (pts : list (c2 FOps)) (ax ay : axis FOps) (r : c2 FOps) (i : Z) (cell : list Z) (lo h : point2) (blk : list ip) (px py : pole) : Prop := mkUsed {
  uc_x : sound_axis (map fst (map point_value pts)) ax;
  uc_y : sound_axis (map snd (map point_value pts)) ay;
  uc_sx : side (map fst (map point_value pts)) (fst lo) (fst lo + fst h);
  uc_sy : side (map snd (map point_value pts)) (snd lo) (snd lo + snd h);
  uc_its : cell_its i cell lo h blk;
  uc_r : finite_point r;
  uc_rx : Rabs (B2R (fst r : f64)) <= bpow radix2 1001;
  uc_ry : Rabs (B2R (snd r : f64)) <= bpow radix2 1001;
  uc_tx : taken ax px (fst lo) (fst lo + fst h) (B2R (fst r : f64));
  uc_ty : taken ay py (snd lo) (snd lo + snd h) (B2R (snd r : f64))
}.

Definition covr (ax ay : axis FOps) (r : c2 FOps) : ip -> bool :=
  covers (K := quad_kind FOps) [ax_min ax; ax_min ay] [ax_incr ax; ax_incr ay] [cellnum ax (B2R (fst r : f64)); cellnum ay (B2R (snd r : f64))].

Lemma used_near : forall pts ax ay r i cell lo h blk px py, used_cell pts ax ay r i cell lo h blk px py ->
  near (fst lo) (fst lo + fst h) (B2R (fst r : f64)) /\ near (snd lo) (snd lo + snd h) (B2R (snd r : f64)).
Proof.
  intros pts ax ay r i cell lo h blk px py [_ _ Sx Sy _ _ _ _ Tx Ty].
  exact (conj (taken_near _ _ _ _ _ _ Sx (f64_fmt (fst r)) Tx) (taken_near _ _ _ _ _ _ Sy (f64_fmt (snd r)) Ty)).
Qed.

(** A corner that is not registered in the bin has a negligible factor. *)
Lemma uncovered : forall pts ax ay r i cell lo h blk px py k it, used_cell pts ax ay r i cell lo h blk px py -> corner_it i cell lo h k it ->
  covr ax ay r it = false ->
  (~ within_pole ax (xpole k) (fst lo) (fst lo + fst h) (B2R (fst r : f64)) /\ Rabs (factor (xpole k) (fst lo) (fst lo + fst h) (B2R (fst r : f64))) <= 5 * u) \/
  (~ within_pole ay (ypole k) (snd lo) (snd lo + snd h) (B2R (snd r : f64)) /\ Rabs (factor (ypole k) (snd lo) (snd lo + snd h) (B2R (snd r : f64))) <= 5 * u).
Proof.
  intros pts ax ay r i cell lo h blk px py k it Hu Hc Hn. destruct Hu as [Hx Hy Hsx Hsy _ _ _ _ Tx Ty].
  pose proof (corner_covers _ _ ax ay _ _ _ _ _ _ r Hx Hy Hsx Hsy Hc) as CC. fold (covr ax ay r) in CC.
  destruct (taken_other _ _ _ _ _ _ (xpole k) Hx Hsx (f64_fmt (fst r)) Tx) as [Wx|Wx];
    destruct (taken_other _ _ _ _ _ _ (ypole k) Hy Hsy (f64_fmt (snd r)) Ty) as [Wy|Wy]; unfold factor.
  - exfalso. pose proof (proj2 CC (conj Wx Wy)). congruence.
  - right. split; [|exact Wy]. intros W. pose proof (proj2 CC (conj Wx W)). congruence.
  - left. split; [|exact Wx]. intros W. pose proof (proj2 CC (conj W Wy)). congruence.
  - destruct (Z_le_dec (cellnum ax (pole_lo (xpole k) (fst lo) (fst lo + fst h))) (cellnum ax (B2R (fst r : f64)))) as [L1|L1];
    [destruct (Z_le_dec (cellnum ax (B2R (fst r : f64))) (cellnum ax (pole_hi (xpole k) (fst lo) (fst lo + fst h)))) as [L2|L2]|].
    + right. split; [|exact Wy]. intros W. pose proof (proj2 CC (conj (conj L1 L2) W)). congruence.
    + left. split; [|exact Wx]. intros [_ W]. contradiction.
    + left. split; [|exact Wx]. intros [W _]. contradiction.
Qed.

(** ** Values *)

Lemma value_term : forall pts ax ay r i cell lo h blk px py k it (data : list f64) v, used_cell pts ax ay r i cell lo h blk px py -> corner_it i cell lo h k it ->
  cell_data (map value data) cell corners2 v -> Forall (fun x : f64 => fin x) data ->
  corner_term (covr ax ay r) QVal r data (14 * u) (1 + 17 * u) it
    (factor (xpole k) (fst lo) (fst lo + fst h) (B2R (fst r : f64)) * factor (ypole k) (snd lo) (snd lo + snd h) (B2R (snd r : f64))) (v k).
Proof.
  intros pts ax ay r i cell lo h blk px py k it data v Hu Hc Hv Fd.
  destruct (used_near _ _ _ _ _ _ _ _ _ _ _ Hu) as [Nx Ny]. pose proof (uncovered _ _ _ _ _ _ _ _ _ _ _ _ _ Hu Hc) as UC.
  destruct Hu as [Hx Hy Hsx Hsy _ Hr Rx Ry Tx Ty].
  destruct (corner_factors _ _ _ _ _ _ _ _ r Hsx Hsy Hc Hr Rx Ry Nx Ny) as (n & p & w & En & Eit & Es & _ & _ & _ & _ & Fx & Fy).
  destruct (corner_data _ _ _ _ _ _ data v Hc Hv Fd) as (x & Ex & Fxx & Vx).
  destruct (value_weight _ _ _ _ _ _ _ _ _ _ Fx Fy) as (Fm & Em & Sm).
  exists (nmul FOps (fx64 p w r k) (fy64 p w r k)), x.
  split. { subst it. unfold ask, quad_values. cbn [it_val]. unfold quad_value, quad_f. cbn [v2_s v2_r v2_n v2_h]. rewrite Es. reflexivity. }
  split; [exact Fm|]. split; [exact Ex|]. split; [exact Fxx|]. split; [exact Vx|]. split; [exact Sm|].
  split; [intros _; exact Em|]. intros Hn. specialize (UC Hn). rewrite Rabs_mult.
  destruct Fx as (_ & _ & Sx). destruct Fy as (_ & _ & Sy). pose proof u_pos as U0. pose proof u_small as U.
  destruct UC as [[_ G]|[_ G]].
  - apply Rle_trans with (5 * u * (1 + u)); [apply Rmult_le_compat; try apply Rabs_pos; assumption|nra].
  - apply Rle_trans with ((1 + u) * (5 * u)); [apply Rmult_le_compat; try apply Rabs_pos; assumption|nra].
Qed.

Lemma four_its : forall i cell lo h blk, cell_its i cell lo h blk -> exists it0 it1 it2 it3, blk = [it0; it1; it2; it3] /\
  corner_it i cell lo h 0 it0 /\ corner_it i cell lo h 1 it1 /\ corner_it i cell lo h 2 it2 /\ corner_it i cell lo h 3 it3.
Proof.
  intros i cell lo h blk H. unfold cell_its, corners2 in H.
  inversion H as [|? a ? l1 C0 H1]; subst. inversion H1 as [|? b ? l2 C1 H2]; subst. inversion H2 as [|? c ? l3 C2 H3]; subst.
  inversion H3 as [|? d ? l4 C3 H4]; subst. inversion H4; subst. exists a, b, c, d. auto.
Qed.

Lemma value_sum : forall pts ax ay r i cell lo h blk px py (data : list f64) v, used_cell pts ax ay r i cell lo h blk px py -> positive2 h ->
  cell_data (map value data) cell corners2 v -> Forall (fun x : f64 => fin x) data -> (forall k, In k corners2 -> Rabs (v k) <= bpow radix2 1000) ->
  let a := fold_left (one_step (covr ax ay r) QVal r data) blk (nofZ FOps 0) in
  fin a /\ Rabs (B2R a - bilinear lo h v (point_value r)) <= 20 * u * rsum (fun k => Rabs (v k)) corners2 + 8 * eta.
Proof.
  intros pts ax ay r i cell lo h blk px py data v Hu [P1 P2] Hv Fd Hb.
  destruct (four_its _ _ _ _ _ (uc_its _ _ _ _ _ _ _ _ _ _ _ Hu)) as (it0 & it1 & it2 & it3 & -> & C0 & C1 & C2 & C3).
  pose proof (value_term _ _ _ _ _ _ _ _ _ _ _ _ _ data v Hu C0 Hv Fd) as T0. pose proof (value_term _ _ _ _ _ _ _ _ _ _ _ _ _ data v Hu C1 Hv Fd) as T1.
  pose proof (value_term _ _ _ _ _ _ _ _ _ _ _ _ _ data v Hu C2 Hv Fd) as T2. pose proof (value_term _ _ _ _ _ _ _ _ _ _ _ _ _ data v Hu C3 Hv Fd) as T3.
  cbn [xpole ypole] in T0, T1, T2, T3. pose proof u_pos as U0. pose proof u_small as U.
  assert (M : forall k, In k corners2 -> (1 + 17 * u) * Rabs (v k) <= bpow radix2 1002).
  { intros k Hk. specialize (Hb k Hk). assert (bpow radix2 1002 = 4 * bpow radix2 1000) by (change 4 with (bpow radix2 2); rewrite <- bpow_plus; reflexivity).
    pose proof (Rabs_pos (v k)). apply Rle_trans with (4 * bpow radix2 1000); [apply Rmult_le_compat; lra|lra]. }
  destruct (block64 (covr ax ay r) QVal r data (14 * u) (1 + 17 * u) it0 it1 it2 it3 _ _ _ _ (v 0%Z) (v 1%Z) (v 2%Z) (v 3%Z) ltac:(lra) ltac:(lra)
    (M 0%Z ltac:(simpl; auto)) (M 1%Z ltac:(simpl; auto)) (M 2%Z ltac:(simpl; auto)) (M 3%Z ltac:(simpl; auto)) T0 T1 T2 T3) as [F E].
  cbv zeta. split; [exact F|].
  match type of E with Rabs (_ - ?s) <= _ => assert (Es : bilinear lo h v (point_value r) = s) end.
  { unfold bilinear, factor, point_value, value. cbn [pole_dist fst snd]. field. split; lra. }
  rewrite Es. eapply Rle_trans; [exact E|]. apply Rplus_le_compat_r. unfold rsum, corners2. cbn [fold_right].
  pose proof (Rabs_pos (v 0%Z)). pose proof (Rabs_pos (v 1%Z)). pose proof (Rabs_pos (v 2%Z)). pose proof (Rabs_pos (v 3%Z)).
  replace (Rabs (v 0%Z) + (Rabs (v 1%Z) + (Rabs (v 2%Z) + (Rabs (v 3%Z) + 0)))) with (Rabs (v 0%Z) + Rabs (v 1%Z) + Rabs (v 2%Z) + Rabs (v 3%Z)) by ring.
  apply Rmult_le_compat_r; [lra|]. assert (u * u <= / 1024 * u) by (apply Rmult_le_compat_r; lra).
  assert (u * u * u <= / 1024 * / 1024 * u) by (apply Rmult_le_compat_r; [lra|]; apply Rmult_le_compat; lra). lra.
Qed.

(** ** Gradients *)

Definition pole_slope (p : pole) : R := match p with Low => -1 | High => 1 end.

Lemma slope64 : forall p, fin (nopp FOps (pole_sign p)) /\ B2R (nopp FOps (pole_sign p) : f64) = pole_slope p.
Proof. intros []; (split; [reflexivity|]); cbv; lra. Qed.
Lemma sign64 : forall p, fin (pole_sign p) /\ B2R (pole_sign p : f64) = - pole_slope p.
Proof. intros []; (split; [reflexivity|]); cbv; lra. Qed.
Lemma slope_abs : forall p, Rabs (pole_slope p) = 1.
Proof. intros []; cbn [pole_slope]; [rewrite Rabs_left by lra; ring|apply Rabs_R1]. Qed.

Lemma rne_slope : forall p x, fmt x -> rne (pole_slope p * x) = pole_slope p * x.
Proof.
  intros [] x F; cbn [pole_slope]; apply rne_id.
  - replace (-1 * x) with (- x) by ring. apply generic_format_opp. exact F.
  - rewrite Rmult_1_l. exact F.
Qed.

(** Dividing by the rounded side. *)
Lemma side_ratio : forall lo hi, fmt lo -> fmt hi -> lo < hi -> let W := rne (hi - lo) in
  0 < W /\ Rabs ((hi - lo) / W - 1) <= 3 / 2 * u.
Proof.
  intros lo hi F1 F2 L W. pose proof (side_pos lo hi F1 F2 L) as P. pose proof (side_near lo hi F1 F2 L) as N. fold W in P, N.
  pose proof u_pos as U0. pose proof u_small as U. split; [exact P|].
  replace ((hi - lo) / W - 1) with ((hi - lo - W) * / W) by (field; lra).
  rewrite Rabs_mult, (Rabs_pos_eq (/ W)) by (left; apply Rinv_0_lt_compat; exact P).
  apply Rmult_le_reg_r with W; [exact P|]. rewrite Rmult_assoc, Rinv_l, Rmult_1_r by lra.
  assert (D : u * (hi - lo) <= 3 / 2 * u * W).
  { replace (3 / 2 * u * W) with (u * (3 / 2 * W)) by ring. apply Rmult_le_compat_l; [lra|].
    assert (u * (hi - lo) <= / 1024 * (hi - lo)) by (apply Rmult_le_compat_r; lra). lra. }
  apply Rabs_le. lra.
Qed.

Lemma eta_side : forall d, 0 < d <= bpow radix2 1000 -> eta <= u / 128 * / d.
Proof.
  intros d [D0 D1]. apply Rmult_le_reg_r with d; [exact D0|]. rewrite Rmult_assoc, Rinv_l, Rmult_1_r by lra.
  apply Rle_trans with (eta * bpow radix2 1000); [apply Rmult_le_compat_l; [apply bpow_ge_0|exact D1]|].
  replace (u / 128) with (bpow radix2 (-60)).
  - rewrite <- bpow_plus. apply bpow_le. lia.
  - replace (/ 128)%R with (bpow radix2 (-7)) by (simpl; lra). unfold Rdiv.
    replace (u * / 128) with (u * bpow radix2 (-7)) by (simpl (bpow radix2 (-7)); lra). rewrite <- bpow_plus. reflexivity.
Qed.

Lemma side_901 : forall l lo hi, side l lo hi -> 0 < hi - lo <= bpow radix2 901.
Proof.
  intros l lo hi ((_ & _ & L & A & B) & _). rabs A. rabs B.
  assert (E : bpow radix2 901 = 2 * bpow radix2 900) by (change 2 with (bpow radix2 1); rewrite <- bpow_plus; reflexivity). lra.
Qed.

Lemma side_big : forall d, 0 < d <= bpow radix2 901 -> 0 < d <= bpow radix2 1000.
Proof. intros d [A B]. split; [exact A|]. eapply Rle_trans; [exact B|]. apply bpow_le. lia. Qed.

Lemma grad_weight : forall l lo hi (w f : f64) p p2 lo2 hi2 y, side l lo hi -> bpow radix2 (-1000) <= hi - lo ->
  fin w -> B2R w = rne (hi - lo) -> factor_ok f p2 lo2 hi2 y ->
  let g := ndiv FOps (nmul FOps (nopp FOps (pole_sign p)) f) w : f64 in
  fin g /\ Rabs (B2R g - pole_slope p * factor p2 lo2 hi2 y / (hi - lo)) <= 9 * u * / (hi - lo) /\
  Rabs (B2R g) <= (1 + 20 * u) * / (hi - lo).
Proof.
  intros l lo hi w f p p2 lo2 hi2 y Hs Hd Fw Vw Hf g. pose proof (factor_size _ _ _ _ _ Hf) as Sf. destruct Hf as (Ff & Af & Bf).
  pose proof (side_901 _ _ _ Hs) as D. destruct (side_1000 _ _ _ Hs) as (F1 & F2 & L & _ & _).
  destruct (side_ratio lo hi F1 F2 L) as [WP WR]. pose proof u_pos as U0. pose proof u_small as U. pose proof (eta_side _ (side_big _ D)) as T.
  set (d := hi - lo) in *. set (W := rne d) in *. set (t := factor p2 lo2 hi2 y) in *.
  destruct (slope64 p) as [Fs Vs].
  assert (B1 : Rabs (B2R (nopp FOps (pole_sign p) : f64) * B2R f) <= bpow radix2 2).
  { rewrite Vs, Rabs_mult, slope_abs. change (bpow radix2 2) with 4. lra. }
  destruct (mul64 (nopp FOps (pole_sign p)) f 2 ltac:(lia) Fs Ff B1) as [Fm Em]. rewrite Vs, (rne_slope p _ (f64_fmt f)) in Em.
  set (rho := d / W) in *. rabs WR.
  assert (ID : 0 < / d) by (apply Rinv_0_lt_compat; lra).
  assert (Eq : pole_slope p * B2R f / W = (pole_slope p * B2R f * rho) * / d) by (unfold rho; field; lra).
  assert (Q : Rabs (pole_slope p * B2R f / W) <= (1 + 10 * u) * / d).
  { rewrite Eq, !Rabs_mult, slope_abs, (Rabs_pos_eq (/ d)), (Rabs_pos_eq rho) by lra. apply Rmult_le_compat_r; [lra|].
    apply Rle_trans with ((1 + 7 * u) * (1 + 3 / 2 * u)); [|nra]. rewrite Rmult_1_l. apply Rmult_le_compat; try apply Rabs_pos; lra. }
  assert (B2 : / d <= bpow radix2 1000).
  { rewrite <- (Rinv_inv (bpow radix2 1000)), <- bpow_opp.
    apply Rinv_le_contravar; [apply bpow_gt_0|exact Hd]. }
  assert (B3 : bpow radix2 1001 = 2 * bpow radix2 1000) by (change 2 with (bpow radix2 1); rewrite <- bpow_plus; reflexivity).
  assert (B4 : Rabs (B2R (nmul FOps (nopp FOps (pole_sign p)) f : f64) / B2R w) <= bpow radix2 1001).
  { rewrite Em, Vw. eapply Rle_trans; [exact Q|]. rewrite B3. apply Rmult_le_compat; lra. }
  destruct (div64 (nmul FOps (nopp FOps (pole_sign p)) f) w 1001 ltac:(lia) Fm Fw ltac:(rewrite Vw; lra) B4) as [Fg Eg].
  fold g in Fg, Eg. rewrite Em, Vw in Eg. split; [exact Fg|]. rewrite Eg.
  pose proof (rne_err (pole_slope p * B2R f / W)) as E.
  assert (E2 : u * Rabs (pole_slope p * B2R f / W) <= u * ((1 + 10 * u) * / d)) by (apply Rmult_le_compat_l; lra).
  assert (E3 : Rabs (pole_slope p * B2R f / W - pole_slope p * t / d) <= (6 * u * (1 + 3 / 2 * u) + (1 + u) * (3 / 2 * u)) * / d).
  { rewrite Eq. replace (pole_slope p * B2R f * rho * / d - pole_slope p * t / d) with (pole_slope p * ((B2R f - t) * rho + t * (rho - 1)) * / d) by (unfold Rdiv; ring).
    rewrite !Rabs_mult, slope_abs, Rmult_1_l, (Rabs_pos_eq (/ d)) by lra. apply Rmult_le_compat_r; [lra|].
    eapply Rle_trans; [apply Rabs_triang|]. rewrite !Rabs_mult, (Rabs_pos_eq rho) by lra.
    apply Rplus_le_compat; apply Rmult_le_compat; try apply Rabs_pos; try lra; apply Rabs_le; lra. }
  assert (uu : u * u <= / 1024 * u) by (apply Rmult_le_compat_r; lra).
  split.
  - replace (rne (pole_slope p * B2R f / W) - pole_slope p * t / d) with
      ((rne (pole_slope p * B2R f / W) - pole_slope p * B2R f / W) + (pole_slope p * B2R f / W - pole_slope p * t / d)) by ring.
    eapply Rle_trans; [apply Rabs_triang|].
    apply Rle_trans with (u * ((1 + 10 * u) * / d) + u / 128 * / d + (6 * u * (1 + 3 / 2 * u) + (1 + u) * (3 / 2 * u)) * / d); [lra|].
    replace (u * ((1 + 10 * u) * / d) + u / 128 * / d + (6 * u * (1 + 3 / 2 * u) + (1 + u) * (3 / 2 * u)) * / d) with
      ((u * (1 + 10 * u) + u / 128 + (6 * u * (1 + 3 / 2 * u) + (1 + u) * (3 / 2 * u))) * / d) by ring.
    apply Rmult_le_compat_r; lra.
  - replace (rne (pole_slope p * B2R f / W)) with ((rne (pole_slope p * B2R f / W) - pole_slope p * B2R f / W) + pole_slope p * B2R f / W) by ring.
    eapply Rle_trans; [apply Rabs_triang|].
    apply Rle_trans with (u * ((1 + 10 * u) * / d) + u / 128 * / d + (1 + 10 * u) * / d); [lra|].
    replace (u * ((1 + 10 * u) * / d) + u / 128 * / d + (1 + 10 * u) * / d) with ((u * (1 + 10 * u) + u / 128 + (1 + 10 * u)) * / d) by ring.
    apply Rmult_le_compat_r; lra.
Qed.

(** Clear of both ends of the side. *)
Definition clear1 (lo hi x : R) : Prop := lo + 4 * u * (hi - lo) <= x <= hi - 4 * u * (hi - lo).

Lemma clear_within : forall l ax lo hi x p, sound_axis l ax -> side l lo hi -> clear1 lo hi x -> within_pole ax p lo hi x.
Proof.
  intros l ax lo hi x p Hax ((F1 & F2 & L & _) & _) [C1 C2]. pose proof u_pos as U0.
  pose proof (top_close lo hi F1 F2 L) as TC. pose proof (bottom_close lo hi F1 F2 L) as BC. rabs TC. rabs BC.
  assert (0 <= u * (hi - lo)) by (apply Rmult_le_pos; lra).
  destruct p; split; eapply cellnum_le; eauto; cbn [pole_lo pole_hi]; lra.
Qed.

Lemma grad0_term : forall pts ax ay r i cell lo h blk px py k it (data : list f64) v, used_cell pts ax ay r i cell lo h blk px py -> corner_it i cell lo h k it ->
  cell_data (map value data) cell corners2 v -> Forall (fun x : f64 => fin x) data ->
  bpow radix2 (-1000) <= fst lo + fst h - fst lo -> clear1 (fst lo) (fst lo + fst h) (B2R (fst r : f64)) ->
  corner_term (covr ax ay r) (QGrad 0) r data (9 * u * / (fst lo + fst h - fst lo)) ((1 + 20 * u) * / (fst lo + fst h - fst lo)) it
    (pole_slope (xpole k) * factor (ypole k) (snd lo) (snd lo + snd h) (B2R (snd r : f64)) / (fst lo + fst h - fst lo)) (v k).
Proof.
  intros pts ax ay r i cell lo h blk px py k it data v Hu Hc Hv Fd Hd Cl.
  destruct (used_near _ _ _ _ _ _ _ _ _ _ _ Hu) as [Nx Ny]. pose proof (uncovered _ _ _ _ _ _ _ _ _ _ _ _ _ Hu Hc) as UC.
  destruct Hu as [Hx Hy Hsx Hsy _ Hr Rx Ry Tx Ty].
  destruct (corner_factors _ _ _ _ _ _ _ _ r Hsx Hsy Hc Hr Rx Ry Nx Ny) as (n & p & w & En & Eit & Es & Fwx & _ & Vwx & _ & Fx & Fy).
  destruct (corner_data _ _ _ _ _ _ data v Hc Hv Fd) as (x & Ex & Fxx & Vx).
  destruct (grad_weight _ _ _ (fst w) (fy64 p w r k) (xpole k) _ _ _ _ Hsx Hd Fwx Vwx Fy) as (Fm & Em & Sm).
  exists (ndiv FOps (nmul FOps (nopp FOps (pole_sign (xpole k))) (fy64 p w r k)) (fst w)), x.
  split. { subst it. unfold ask, quad_values. cbn [it_grad]. unfold quad_dvalue. cbn [vget]. rewrite Es. reflexivity. }
  split; [exact Fm|]. split; [exact Ex|]. split; [exact Fxx|]. split; [exact Vx|]. split; [exact Sm|].
  split; [intros _; exact Em|]. intros Hn. pose proof u_pos as U0. pose proof (proj1 (side_901 _ _ _ Hsx)) as D.
  assert (ID : 0 < / (fst lo + fst h - fst lo)) by (apply Rinv_0_lt_compat; exact D).
  destruct (UC Hn) as [[G _]|[_ G]].
  - exfalso. apply G. eapply clear_within; eauto.
  - unfold Rdiv. rewrite !Rabs_mult, slope_abs, Rmult_1_l, (Rabs_pos_eq (/ _)) by lra. apply Rmult_le_compat_r; lra.
Qed.

Lemma grad1_term : forall pts ax ay r i cell lo h blk px py k it (data : list f64) v, used_cell pts ax ay r i cell lo h blk px py -> corner_it i cell lo h k it ->
  cell_data (map value data) cell corners2 v -> Forall (fun x : f64 => fin x) data ->
  bpow radix2 (-1000) <= snd lo + snd h - snd lo -> clear1 (snd lo) (snd lo + snd h) (B2R (snd r : f64)) ->
  corner_term (covr ax ay r) (QGrad 1) r data (9 * u * / (snd lo + snd h - snd lo)) ((1 + 20 * u) * / (snd lo + snd h - snd lo)) it
    (pole_slope (ypole k) * factor (xpole k) (fst lo) (fst lo + fst h) (B2R (fst r : f64)) / (snd lo + snd h - snd lo)) (v k).
Proof.
  intros pts ax ay r i cell lo h blk px py k it data v Hu Hc Hv Fd Hd Cl.
  destruct (used_near _ _ _ _ _ _ _ _ _ _ _ Hu) as [Nx Ny]. pose proof (uncovered _ _ _ _ _ _ _ _ _ _ _ _ _ Hu Hc) as UC.
  destruct Hu as [Hx Hy Hsx Hsy _ Hr Rx Ry Tx Ty].
  destruct (corner_factors _ _ _ _ _ _ _ _ r Hsx Hsy Hc Hr Rx Ry Nx Ny) as (n & p & w & En & Eit & Es & _ & Fwy & _ & Vwy & Fx & Fy).
  destruct (corner_data _ _ _ _ _ _ data v Hc Hv Fd) as (x & Ex & Fxx & Vx).
  destruct (grad_weight _ _ _ (snd w) (fx64 p w r k) (ypole k) _ _ _ _ Hsy Hd Fwy Vwy Fx) as (Fm & Em & Sm).
  exists (ndiv FOps (nmul FOps (nopp FOps (pole_sign (ypole k))) (fx64 p w r k)) (snd w)), x.
  split. { subst it. unfold ask, quad_values. cbn [it_grad]. unfold quad_dvalue. cbn [vget]. rewrite Es. reflexivity. }
  split; [exact Fm|]. split; [exact Ex|]. split; [exact Fxx|]. split; [exact Vx|]. split; [exact Sm|].
  split; [intros _; exact Em|]. intros Hn. pose proof u_pos as U0. pose proof (proj1 (side_901 _ _ _ Hsy)) as D.
  assert (ID : 0 < / (snd lo + snd h - snd lo)) by (apply Rinv_0_lt_compat; exact D).
  destruct (UC Hn) as [[_ G]|[G _]].
  - unfold Rdiv. rewrite !Rabs_mult, slope_abs, Rmult_1_l, (Rabs_pos_eq (/ _)) by lra. apply Rmult_le_compat_r; lra.
  - exfalso. apply G. eapply clear_within; eauto.
Qed.

(** Four weights of size about 1/d. *)
Lemma scaled_sum : forall cov q r data d it0 it1 it2 it3 t0 t1 t2 t3 (v : Z -> R), 0 < d -> (forall k, In k corners2 -> Rabs (v k) <= bpow radix2 1000 * d) ->
  corner_term cov q r data (9 * u * / d) ((1 + 20 * u) * / d) it0 t0 (v 0%Z) -> corner_term cov q r data (9 * u * / d) ((1 + 20 * u) * / d) it1 t1 (v 1%Z) ->
  corner_term cov q r data (9 * u * / d) ((1 + 20 * u) * / d) it2 t2 (v 2%Z) -> corner_term cov q r data (9 * u * / d) ((1 + 20 * u) * / d) it3 t3 (v 3%Z) ->
  let a := fold_left (one_step cov q r data) [it0; it1; it2; it3] (nofZ FOps 0) in
  fin a /\ Rabs (B2R a - (t0 * v 0%Z + t1 * v 1%Z + t2 * v 2%Z + t3 * v 3%Z)) <= 15 * u * (rsum (fun k => Rabs (v k)) corners2 / d) + 8 * eta.
Proof.
  intros cov q r data d it0 it1 it2 it3 t0 t1 t2 t3 v D Hb T0 T1 T2 T3. pose proof u_pos as U0. pose proof u_small as U.
  assert (ID : 0 < / d) by (apply Rinv_0_lt_compat; exact D).
  assert (G0 : 0 <= 9 * u * / d) by (apply Rmult_le_pos; lra).
  assert (G1 : 0 <= (1 + 20 * u) * / d) by (apply Rmult_le_pos; lra).
  assert (M : forall k, In k corners2 -> (1 + 20 * u) * / d * Rabs (v k) <= bpow radix2 1002).
  { intros k Hk. specialize (Hb k Hk). assert (bpow radix2 1002 = 4 * bpow radix2 1000) by (change 4 with (bpow radix2 2); rewrite <- bpow_plus; reflexivity).
    pose proof (Rabs_pos (v k)). pose proof (bpow_ge_0 radix2 1000).
    apply Rle_trans with ((1 + 20 * u) * / d * (bpow radix2 1000 * d)); [apply Rmult_le_compat_l; lra|].
    replace ((1 + 20 * u) * / d * (bpow radix2 1000 * d)) with ((1 + 20 * u) * bpow radix2 1000) by (field; lra).
    apply Rle_trans with (4 * bpow radix2 1000); [apply Rmult_le_compat_r; lra|lra]. }
  destruct (block64 cov q r data _ _ it0 it1 it2 it3 _ _ _ _ (v 0%Z) (v 1%Z) (v 2%Z) (v 3%Z) G0 G1
    (M 0%Z ltac:(simpl; auto)) (M 1%Z ltac:(simpl; auto)) (M 2%Z ltac:(simpl; auto)) (M 3%Z ltac:(simpl; auto)) T0 T1 T2 T3) as [F E].
  cbv zeta. split; [exact F|]. eapply Rle_trans; [exact E|]. apply Rplus_le_compat_r. unfold rsum, corners2. cbn [fold_right].
  pose proof (Rabs_pos (v 0%Z)). pose proof (Rabs_pos (v 1%Z)). pose proof (Rabs_pos (v 2%Z)). pose proof (Rabs_pos (v 3%Z)).
  replace (Rabs (v 0%Z) + (Rabs (v 1%Z) + (Rabs (v 2%Z) + (Rabs (v 3%Z) + 0)))) with (Rabs (v 0%Z) + Rabs (v 1%Z) + Rabs (v 2%Z) + Rabs (v 3%Z)) by ring.
  set (b := Rabs (v 0%Z) + Rabs (v 1%Z) + Rabs (v 2%Z) + Rabs (v 3%Z)).
  replace (15 * u * (b / d)) with (15 * u * / d * b) by (unfold Rdiv; ring). apply Rmult_le_compat_r; [unfold b; lra|].
  replace (9 * u * / d + u * ((1 + 20 * u) * / d) + 4 * u * ((1 + u) * ((1 + 20 * u) * / d))) with
    ((9 * u + u * (1 + 20 * u) + 4 * u * ((1 + u) * (1 + 20 * u))) * / d) by ring.
  apply Rmult_le_compat_r; [lra|]. assert (u * u <= / 1024 * u) by (apply Rmult_le_compat_r; lra).
  assert (u * u * u <= / 1024 * / 1024 * u) by (apply Rmult_le_compat_r; [lra|]; apply Rmult_le_compat; lra). lra.
Qed.

Lemma grad0_sum : forall pts ax ay r i cell lo h blk px py (data : list f64) v, used_cell pts ax ay r i cell lo h blk px py -> positive2 h ->
  cell_data (map value data) cell corners2 v -> Forall (fun x : f64 => fin x) data ->
  bpow radix2 (-1000) <= fst h -> (forall k, In k corners2 -> Rabs (v k) <= bpow radix2 1000 * fst h) ->
  clear1 (fst lo) (fst lo + fst h) (B2R (fst r : f64)) ->
  let a := fold_left (one_step (covr ax ay r) (QGrad 0) r data) blk (nofZ FOps 0) in
  fin a /\ Rabs (B2R a - bilinear_slope lo h v 0 (point_value r)) <= 15 * u * (rsum (fun k => Rabs (v k)) corners2 / fst h) + 8 * eta.
Proof.
  intros pts ax ay r i cell lo h blk px py data v Hu [P1 P2] Hv Fd Hd Hb Cl.
  assert (Ed : fst lo + fst h - fst lo = fst h) by ring. assert (Hd' : bpow radix2 (-1000) <= fst lo + fst h - fst lo) by (rewrite Ed; exact Hd).
  destruct (four_its _ _ _ _ _ (uc_its _ _ _ _ _ _ _ _ _ _ _ Hu)) as (it0 & it1 & it2 & it3 & -> & C0 & C1 & C2 & C3).
  pose proof (grad0_term _ _ _ _ _ _ _ _ _ _ _ _ _ data v Hu C0 Hv Fd Hd' Cl) as T0. pose proof (grad0_term _ _ _ _ _ _ _ _ _ _ _ _ _ data v Hu C1 Hv Fd Hd' Cl) as T1.
  pose proof (grad0_term _ _ _ _ _ _ _ _ _ _ _ _ _ data v Hu C2 Hv Fd Hd' Cl) as T2. pose proof (grad0_term _ _ _ _ _ _ _ _ _ _ _ _ _ data v Hu C3 Hv Fd Hd' Cl) as T3.
  cbn [xpole ypole] in T0, T1, T2, T3. rewrite Ed in T0, T1, T2, T3.
  destruct (scaled_sum _ _ _ _ _ _ _ _ _ _ _ _ _ v P1 Hb T0 T1 T2 T3) as [F E].
  cbv zeta. split; [exact F|].
  match type of E with Rabs (_ - ?s) <= _ => assert (Es : bilinear_slope lo h v 0 (point_value r) = s) end.
  { unfold bilinear_slope, factor, point_value, value. cbn [pole_dist pole_slope fst snd]. field. split; lra. }
  rewrite Es. exact E.
Qed.

Lemma grad1_sum : forall pts ax ay r i cell lo h blk px py (data : list f64) v, used_cell pts ax ay r i cell lo h blk px py -> positive2 h ->
  cell_data (map value data) cell corners2 v -> Forall (fun x : f64 => fin x) data ->
  bpow radix2 (-1000) <= snd h -> (forall k, In k corners2 -> Rabs (v k) <= bpow radix2 1000 * snd h) ->
  clear1 (snd lo) (snd lo + snd h) (B2R (snd r : f64)) ->
  let a := fold_left (one_step (covr ax ay r) (QGrad 1) r data) blk (nofZ FOps 0) in
  fin a /\ Rabs (B2R a - bilinear_slope lo h v 1 (point_value r)) <= 15 * u * (rsum (fun k => Rabs (v k)) corners2 / snd h) + 8 * eta.
Proof.
  intros pts ax ay r i cell lo h blk px py data v Hu [P1 P2] Hv Fd Hd Hb Cl.
  assert (Ed : snd lo + snd h - snd lo = snd h) by ring. assert (Hd' : bpow radix2 (-1000) <= snd lo + snd h - snd lo) by (rewrite Ed; exact Hd).
  destruct (four_its _ _ _ _ _ (uc_its _ _ _ _ _ _ _ _ _ _ _ Hu)) as (it0 & it1 & it2 & it3 & -> & C0 & C1 & C2 & C3).
  pose proof (grad1_term _ _ _ _ _ _ _ _ _ _ _ _ _ data v Hu C0 Hv Fd Hd' Cl) as T0. pose proof (grad1_term _ _ _ _ _ _ _ _ _ _ _ _ _ data v Hu C1 Hv Fd Hd' Cl) as T1.
  pose proof (grad1_term _ _ _ _ _ _ _ _ _ _ _ _ _ data v Hu C2 Hv Fd Hd' Cl) as T2. pose proof (grad1_term _ _ _ _ _ _ _ _ _ _ _ _ _ data v Hu C3 Hv Fd Hd' Cl) as T3.
  cbn [xpole ypole] in T0, T1, T2, T3. rewrite Ed in T0, T1, T2, T3.
  destruct (scaled_sum _ _ _ _ _ _ _ _ _ _ _ _ _ v P2 Hb T0 T1 T2 T3) as [F E].
  cbv zeta. split; [exact F|].
  match type of E with Rabs (_ - ?s) <= _ => assert (Es : bilinear_slope lo h v 1 (point_value r) = s) end.
  { unfold bilinear_slope, factor, point_value, value. cbn [pole_dist pole_slope fst snd]. field. split; lra. }
  rewrite Es. exact E.
Qed.

(** ** Second derivatives *)

Lemma inv_1000 : forall d, bpow radix2 (-1000) <= d -> / d <= bpow radix2 1000.
Proof.
  intros d Hd. rewrite <- (Rinv_inv (bpow radix2 1000)), <- bpow_opp. apply Rinv_le_contravar; [apply bpow_gt_0|exact Hd].
Qed.

Lemma slopes_abs : forall p1 p2, Rabs (pole_slope p1 * pole_slope p2) = 1.
Proof. intros p1 p2. rewrite Rabs_mult, !slope_abs. ring. Qed.

Lemma hess_weight : forall l1 lo1 hi1 l2 lo2 hi2 (w1 w2 : f64) p1 p2, side l1 lo1 hi1 -> side l2 lo2 hi2 ->
  bpow radix2 (-1000) <= hi1 - lo1 -> bpow radix2 (-1000) <= (hi1 - lo1) * (hi2 - lo2) <= bpow radix2 1000 ->
  fin w1 -> B2R w1 = rne (hi1 - lo1) -> fin w2 -> B2R w2 = rne (hi2 - lo2) ->
  let g := ndiv FOps (ndiv FOps (nmul FOps (pole_sign p1) (pole_sign p2)) w1) w2 : f64 in
  fin g /\ Rabs (B2R g - pole_slope p1 * pole_slope p2 / ((hi1 - lo1) * (hi2 - lo2))) <= 9 * u * / ((hi1 - lo1) * (hi2 - lo2)) /\
  Rabs (B2R g) <= (1 + 20 * u) * / ((hi1 - lo1) * (hi2 - lo2)).
Proof.
  intros l1 lo1 hi1 l2 lo2 hi2 w1 w2 p1 p2 H1 H2 Hd [HD HD2] F1 V1 F2 V2 g.
  pose proof (side_901 _ _ _ H1) as D1. pose proof (side_901 _ _ _ H2) as D2.
  destruct (side_1000 _ _ _ H1) as (A1 & A2 & A3 & _ & _). destruct (side_1000 _ _ _ H2) as (B1 & B2 & B3 & _ & _).
  destruct (side_ratio lo1 hi1 A1 A2 A3) as [P1 R1]. destruct (side_ratio lo2 hi2 B1 B2 B3) as [P2 R2].
  pose proof u_pos as U0. pose proof u_small as U. pose proof (eta_side _ (side_big _ D1)) as T1.
  pose proof (inv_1000 _ Hd) as I1. pose proof (inv_1000 _ HD) as I2.
  set (d1 := hi1 - lo1) in *. set (d2 := hi2 - lo2) in *. set (W1 := rne d1) in *. set (W2 := rne d2) in *.
  set (s := pole_slope p1 * pole_slope p2).
  assert (As : Rabs s = 1) by apply slopes_abs.
  assert (D : 0 < d1 * d2) by (apply Rmult_lt_0_compat; lra).
  assert (T2 : eta <= u / 128 * / (d1 * d2)) by (apply eta_side; split; [exact D|exact HD2]).
  assert (J1 : 0 < / d1) by (apply Rinv_0_lt_compat; lra). assert (J2 : 0 < / d2) by (apply Rinv_0_lt_compat; lra).
  assert (J : 0 < / (d1 * d2)) by (apply Rinv_0_lt_compat; exact D).
  assert (uu : u * u <= / 1024 * u) by (apply Rmult_le_compat_r; lra).
  assert (B1001 : bpow radix2 1001 = 2 * bpow radix2 1000) by (change 2 with (bpow radix2 1); rewrite <- bpow_plus; reflexivity).
  (* the sign *)
  destruct (sign64 p1) as [Fs1 Vs1]. destruct (sign64 p2) as [Fs2 Vs2].
  assert (Es : B2R (pole_sign p1) * B2R (pole_sign p2) = s) by (unfold s; rewrite Vs1, Vs2; ring).
  destruct (mul64 (pole_sign p1) (pole_sign p2) 0 ltac:(lia) Fs1 Fs2) as [Fs Vs].
  { rewrite Es, As. simpl. lra. }
  rewrite Es in Vs.
  assert (Vs' : B2R (nmul FOps (pole_sign p1) (pole_sign p2) : f64) = s).
  { rewrite Vs. unfold s. destruct p1, p2; cbn [pole_slope]; apply rne_id.
    - replace (-1 * -1) with 1 by ring. apply fmt_1.
    - replace (-1 * 1) with (- (1)) by ring. apply generic_format_opp, fmt_1.
    - replace (1 * -1) with (- (1)) by ring. apply generic_format_opp, fmt_1.
    - replace (1 * 1) with 1 by ring. apply fmt_1. }
  (* first division *)
  set (rho1 := d1 / W1) in *. set (rho2 := d2 / W2) in *. rabs R1. rabs R2.
  assert (Q1 : s / W1 = s * rho1 * / d1) by (unfold rho1; field; lra).
  assert (S1 : Rabs (s / W1) <= (1 + 3 / 2 * u) * / d1).
  { rewrite Q1, !Rabs_mult, As, (Rabs_pos_eq (/ d1)), (Rabs_pos_eq rho1) by lra. apply Rmult_le_compat_r; lra. }
  destruct (div64 (nmul FOps (pole_sign p1) (pole_sign p2)) w1 1001 ltac:(lia) Fs F1 ltac:(rewrite V1; lra)) as [Fq Vq].
  { rewrite Vs', V1. eapply Rle_trans; [exact S1|]. rewrite B1001. apply Rmult_le_compat; lra. }
  rewrite Vs', V1 in Vq. set (q := ndiv FOps (nmul FOps (pole_sign p1) (pole_sign p2)) w1 : f64) in *.
  pose proof (rne_err (s / W1)) as E1. fold W1 in Vq. rewrite <- Vq in E1.
  assert (E1' : Rabs (B2R q - s / d1) <= 11 / 4 * u * / d1).
  { replace (B2R q - s / d1) with ((B2R q - s / W1) + s * (rho1 - 1) * / d1) by (rewrite Q1; unfold Rdiv; ring).
    eapply Rle_trans; [apply Rabs_triang|]. rewrite !Rabs_mult, As, (Rabs_pos_eq (/ d1)), Rmult_1_l by lra.
    assert (R1' : Rabs (rho1 - 1) <= 3 / 2 * u) by (apply Rabs_le; lra).
    apply Rle_trans with ((u * ((1 + 3 / 2 * u) * / d1) + u / 128 * / d1) + 3 / 2 * u * / d1).
    - apply Rplus_le_compat; [|apply Rmult_le_compat_r; lra]. eapply Rle_trans; [exact E1|].
      apply Rplus_le_compat; [apply Rmult_le_compat_l; lra|lra].
    - replace (u * ((1 + 3 / 2 * u) * / d1) + u / 128 * / d1 + 3 / 2 * u * / d1) with ((u * (1 + 3 / 2 * u) + u / 128 + 3 / 2 * u) * / d1) by ring.
      apply Rmult_le_compat_r; lra. }
  assert (S1' : Rabs (B2R q) <= (1 + 11 / 4 * u) * / d1).
  { replace (B2R q) with ((B2R q - s / d1) + s * / d1) by (unfold Rdiv; ring). eapply Rle_trans; [apply Rabs_triang|].
    rewrite (Rabs_mult s), As, (Rabs_pos_eq (/ d1)) by lra. lra. }
  (* second division *)
  assert (EJ : / d1 * / d2 = / (d1 * d2)) by (field; lra).
  assert (Q2 : B2R q / W2 = B2R q * rho2 * / d2) by (unfold rho2; field; lra).
  assert (S2 : Rabs (B2R q / W2) <= (1 + 5 * u) * / (d1 * d2)).
  { rewrite Q2, !Rabs_mult, (Rabs_pos_eq (/ d2)), (Rabs_pos_eq rho2) by lra. rewrite <- EJ.
    apply Rle_trans with ((1 + 11 / 4 * u) * / d1 * (1 + 3 / 2 * u) * / d2).
    - apply Rmult_le_compat_r; [lra|]. apply Rmult_le_compat; try apply Rabs_pos; lra.
    - replace ((1 + 11 / 4 * u) * / d1 * (1 + 3 / 2 * u) * / d2) with ((1 + 11 / 4 * u) * (1 + 3 / 2 * u) * (/ d1 * / d2)) by ring.
      rewrite EJ. apply Rmult_le_compat_r; lra. }
  destruct (div64 q w2 1001 ltac:(lia) Fq F2 ltac:(rewrite V2; lra)) as [Fg Vg].
  { rewrite V2. eapply Rle_trans; [exact S2|]. rewrite B1001. apply Rmult_le_compat; lra. }
  fold g in Fg, Vg. rewrite V2 in Vg. fold W2 in Vg. pose proof (rne_err (B2R q / W2)) as E2. rewrite <- Vg in E2.
  split; [exact Fg|].
  assert (E2' : Rabs (B2R g - B2R q / W2) <= (u * (1 + 5 * u) + u / 128) * / (d1 * d2)).
  { eapply Rle_trans; [exact E2|]. rewrite Rmult_plus_distr_r. apply Rplus_le_compat; [|exact T2].
    rewrite Rmult_assoc. apply Rmult_le_compat_l; lra. }
  split.
  - replace (B2R g - s / (d1 * d2)) with ((B2R g - B2R q / W2) + ((B2R q - s / d1) * rho2 * / d2 + s * (rho2 - 1) * (/ d1 * / d2))) by
      (rewrite Q2; field; lra).
    eapply Rle_trans; [apply Rabs_triang|].
    apply Rle_trans with ((u * (1 + 5 * u) + u / 128) * / (d1 * d2) + (11 / 4 * u * / d1 * (1 + 3 / 2 * u) * / d2 + 1 * (3 / 2 * u) * (/ d1 * / d2))).
    + apply Rplus_le_compat; [exact E2'|]. eapply Rle_trans; [apply Rabs_triang|].
      rewrite !Rabs_mult, As, (Rabs_pos_eq (/ d1)), (Rabs_pos_eq (/ d2)), (Rabs_pos_eq rho2) by lra.
      assert (R2' : Rabs (rho2 - 1) <= 3 / 2 * u) by (apply Rabs_le; lra).
      apply Rplus_le_compat.
      * apply Rmult_le_compat_r; [lra|]. apply Rmult_le_compat; try apply Rabs_pos; lra.
      * apply Rmult_le_compat_r; [rewrite EJ; lra|]. lra.
    + replace (11 / 4 * u * / d1 * (1 + 3 / 2 * u) * / d2) with (11 / 4 * u * (1 + 3 / 2 * u) * (/ d1 * / d2)) by ring. rewrite EJ.
      rewrite <- !Rmult_plus_distr_r. apply Rmult_le_compat_r; lra.
  - replace (B2R g) with ((B2R g - B2R q / W2) + B2R q / W2) by ring. eapply Rle_trans; [apply Rabs_triang|].
    apply Rle_trans with ((u * (1 + 5 * u) + u / 128) * / (d1 * d2) + (1 + 5 * u) * / (d1 * d2)); [lra|].
    rewrite <- Rmult_plus_distr_r. apply Rmult_le_compat_r; lra.
Qed.
