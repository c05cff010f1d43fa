(** Which nodal data an evaluation depends on, and what is done with coordinates that are no numbers: C51. *)
From Flocq Require Import Core Plus_error BinarySingleNaN.
From Coq Require Import ZArith List Bool Lia ZifyBool Reals Lra String.
From Verif Require Import Model.Outcome Model.Num Model.NumInst Model.PNDArray Model.Bin Model.PSimple Model.Interpolator
  Model.Quad Model.Hexahedron Model.Mesh Model.PField.
From Verif Require Import Spec.Tensor Spec.NDHistory Spec.Grid Spec.Funcs Spec.Shape Spec.Fields Spec.Vtk.
From Verif Require Import Proofs.OutcomeP Proofs.PNDArrayP Proofs.BinP Proofs.BinLaterP Proofs.MeshP Proofs.FieldP Proofs.MeshReadP Proofs.AxisP Proofs.ShapeP Proofs.MeshRP
  Proofs.RectP Proofs.HexP Proofs.RereadP.
Import ListNotations.
Local Open Scope Z_scope.

(** ** Nodal data *)

Section Local.
Context {O : NumOps} {K : kind O}.
Local Notation ip := (interp O (kpoint K)).
Local Notation F := (scalar_field O).
Variables (plain tame : num O -> Prop).
(** Partial sums ([plain]) are not changed by adding zero times a datum ([tame]). *)
Hypothesis plain_zero : plain (nofZ O 0).
Hypothesis plain_add : forall s x, plain s -> plain (nadd O s x).
Hypothesis plain_skip : forall s v, plain s -> tame v -> nadd O s (nmul O (nofZ O 0) v) = s.
Hypothesis elem_of : forall nd el p h k, it_elem (kvalues K nd el p h k) = el /\ it_node (kvalues K nd el p h k) = nd.

Lemma wsum_local : forall (its : list ip) e f ws d1 d2 vs1 vs2 s, Forall2 (fun it w => weigh f e it = Ok w) its ws ->
  Forall2 (fun it v => vget d1 (it_node it) = Ok v) its vs1 -> Forall2 (fun it v => vget d2 (it_node it) = Ok v) its vs2 ->
  (forall it, In it its -> it_elem it = e -> vget d1 (it_node it) = vget d2 (it_node it)) ->
  Forall tame d1 -> Forall tame d2 -> plain s ->
  wsum (F := F) s (combine ws vs1) = wsum (F := F) s (combine ws vs2).
Proof.
  intros its e f ws d1 d2 vs1 vs2 s Hw. revert vs1 vs2 s. induction Hw as [|it w its ws Hw Hws IH]; intros vs1 vs2 s H1 H2 Hag T1 T2 Hs.
  - reflexivity.
  - inversion H1 as [|? v1 ? r1 E1 R1]; subst. inversion H2 as [|? v2 ? r2 E2 R2]; subst.
    cbn [combine]. unfold wsum. cbn [fold_left fst snd ft_add ft_scale scalar_field].
    assert (E : nadd O s (nmul O w v1) = nadd O s (nmul O w v2)).
    { unfold weigh in Hw. destruct (it_elem it =? e) eqn:Ee.
      - assert (v1 = v2) as ->; [|reflexivity].
        assert (H : Ok v1 = Ok v2) by (rewrite <- E1, <- E2; apply Hag; [left; reflexivity|lia]). injection H as ->. reflexivity.
      - injection Hw as <-. rewrite (plain_skip s v1), (plain_skip s v2); auto.
        + rewrite Forall_forall in T2. apply T2. apply vget_some in E2. destruct E2 as [_ E2]. eapply nth_error_In; eauto.
        + rewrite Forall_forall in T1. apply T1. apply vget_some in E1. destruct E1 as [_ E1]. eapply nth_error_In; eauto. }
    rewrite E. apply (IH r1 r2); auto. intros it' Hit'. apply Hag. right. exact Hit'.
Qed.

Lemma elem_nodes : forall pts cells (its : list ip), all_interpolators pts cells its -> forall it, In it its ->
  exists cell, nth_error cells (Z.to_nat (it_elem it)) = Some cell /\ 0 <= it_elem it /\
    exists k, (k < kcorners K)%nat /\ vget cell (Z.of_nat k) = Ok (it_node it).
Proof.
  intros pts cells its (parts & -> & Hl & Hp) it Hit. apply in_concat in Hit. destruct Hit as (part & Hpart & Hit).
  apply In_nth_error in Hpart. destruct Hpart as (k & Hk).
  assert (Hc : exists cell, nth_error cells k = Some cell).
  { destruct (nth_error cells k) as [cell|] eqn:E; [eauto|]. apply nth_error_None in E.
    assert (k < List.length parts)%nat by (apply nth_error_Some; congruence). lia. }
  destruct Hc as (cell & Hc). destruct (Hp k cell part Hc Hk) as (Hlen & n0 & p0 & nf & pf & _ & _ & _ & _ & Hj).
  apply In_nth_error in Hit. destruct Hit as (j & Ej).
  assert (Hjl : (j < kcorners K)%nat) by (rewrite <- Hlen; apply nth_error_Some; congruence).
  destruct (Hj j Hjl) as (n & p & En & _ & E). rewrite Ej in E. injection E as ->.
  destruct (elem_of n (Z.of_nat k) p (kdiff K pf p0) (Z.of_nat j)) as [-> ->].
  exists cell. rewrite Nat2Z.id. split; [exact Hc|]. split; [lia|]. exists j. auto.
Qed.

Lemma local_data : forall pts cells (m : mesh O K) c, answering (K := K) -> mesh_of pts cells m -> claimed m c ->
  exists cell, In cell cells /\ forall data1 data2 p1 p2 q, field_on (F := F) m data1 (nofZ O 0) p1 -> field_on (F := F) m data2 (nofZ O 0) p2 ->
    Forall tame data1 -> Forall tame data2 ->
    (forall k n, (k < kcorners K)%nat -> vget cell (Z.of_nat k) = Ok n -> vget data1 n = vget data2 n) -> on_axes (kdim K) q ->
    exists a, (forall h m' p', field_history (m, p1) h (m', p') -> exists s, field_eval q c (m', p') = RRet s a) /\
              (forall h m' p', field_history (m, p2) h (m', p') -> exists s, field_eval q c (m', p') = RRet s a).
Proof.
  intros pts cells m c Ha Hof (its & it & Hv & Hit & Hr).
  assert (Hread : mesh_read m).
  { destruct Hof as (m1 & E1 & E2). eapply MeshCells; [eapply MeshPoints; [constructor|exact E1]|exact E2]. }
  pose proof (mesh_read_inv m Ha Hread) as Hinv.
  assert (Hall : all_interpolators pts cells (me_interp m)).
  { destruct (onto_contents mesh_new pts cells m Hof) as (_ & its' & E & H). simpl in E, H. rewrite E. exact H. }
  assert (Hin : forall it', In it' its -> In it' (me_interp m)).
  { unfold view in Hv. destruct (bin_contents (kcoords K c) (me_bin m)) as [b l| | | |] eqn:E; try discriminate. injection Hv as ->.
    destruct (contents_at _ _ _ _ E) as (t & Ht). pose proof (mi_items _ Hinv _ (nd_at_in _ _ _ _ Ht)) as Hf.
    rewrite Forall_forall in Hf. exact Hf. }
  destruct (find (fun it => it_range it c) its) as [it0|] eqn:Ef.
  2:{ exfalso. pose proof (find_none _ _ Ef it Hit). simpl in *. congruence. }
  apply find_some in Ef as Hit0. destruct Hit0 as [Hit0 _].
  destruct (elem_nodes _ _ _ Hall it0 (Hin _ Hit0)) as (cell & Hcell & He0 & _).
  exists cell. split; [eapply nth_error_In; eauto|]. intros data1 data2 p1 p2 q Hon1 Hon2 T1 T2 Hag Hq.
  destruct (field_on_ok _ _ _ _ Ha Hon1) as [Hm1 Hf1]. destruct (field_on_ok _ _ _ _ Ha Hon2) as [Hm2 Hf2].
  pose proof (field_eval_spec m data1 (nofZ O 0) m p1 q c Hm1 Hf1 Hq) as S. rewrite Hv in S. destruct S as (_ & _ & a & _ & _ & R1 & _).
  exists a.
  assert (Hagree : forall it', In it' its -> it_elem it' = it_elem it0 -> vget data1 (it_node it') = vget data2 (it_node it')).
  { intros it' Hi' Ee. destruct (elem_nodes _ _ _ Hall it' (Hin _ Hi')) as (cell' & Hc' & _ & k & Hk & En).
    rewrite Ee, Hcell in Hc'. injection Hc' as <-. exact (Hag k _ Hk En). }
  split; intros h m' p' Hh.
  - pose proof (history_ok _ _ _ _ _ _ Hm1 Hf1 Hh) as Hf'.
    pose proof (field_eval_spec m data1 (nofZ O 0) m' p' q c Hm1 Hf' Hq) as S'. rewrite Hv in S'.
    destruct S' as (m2 & p3 & a2 & S' & _ & R2 & _). replace a with a2; [eauto|]. symmetry. eapply result_is_fun; [| | |exact R1|exact R2].
    + transitivity data1; [exact (fk_field _ _ _ _ Hf')|symmetry; exact (fk_field _ _ _ _ Hf1)].
    + transitivity (nofZ O 0); [exact (fk_zero _ _ _ _ Hf')|symmetry; exact (fk_zero _ _ _ _ Hf1)].
    + intros En. rewrite Ef in En. discriminate En.
  - pose proof (history_ok _ _ _ _ _ _ Hm2 Hf2 Hh) as Hf'.
    pose proof (field_eval_spec m data2 (nofZ O 0) m' p' q c Hm2 Hf' Hq) as S'. rewrite Hv in S'.
    destruct S' as (m2 & p3 & a2 & S' & _ & R2 & _). replace a with a2; [eauto|].
    unfold result_is in R1, R2. rewrite Ef in R1, R2. destruct R1 as (ws & vs1 & W1 & V1 & ->), R2 as (ws2 & vs2 & W2 & V2 & ->).
    assert (ws2 = ws) as ->.
    { clear -W1 W2. revert ws2 W2. induction W1 as [|x y l ys H0 H IH]; intros ws2 W2; inversion W2; subst; auto. f_equal; [congruence|auto]. }
    pose proof (fk_field _ _ _ _ Hf1) as G1. pose proof (fk_zero _ _ _ _ Hf1) as Z1.
    pose proof (fk_field _ _ _ _ Hf') as G2. pose proof (fk_zero _ _ _ _ Hf') as Z2. cbn [snd] in G1, Z1, G2, Z2.
    rewrite G1 in V1. rewrite G2 in V2. rewrite Z1, Z2. symmetry.
    exact (wsum_local its (it_elem it0) _ ws data1 data2 vs1 vs2 _ W1 V1 V2 Hagree T1 T2 plain_zero).
Qed.
End Local.

(** ** The two arithmetics *)

Lemma real_skip : forall s v : R, nadd ROps s (nmul ROps (nofZ ROps 0) v) = s.
Proof. intros s v. simpl. ring. Qed.

Definition not_minus_zero (x : f64) : Prop := x <> B754_zero true.

Lemma f64_zero : nofZ FOps 0 = B754_zero false.
Proof. reflexivity. Qed.

Lemma f64_skip : forall s v : f64, not_minus_zero s -> is_finite v = true -> nadd FOps s (nmul FOps (nofZ FOps 0) v) = s.
Proof.
  intros s v Hs Hv. rewrite f64_zero.
  assert (E : exists b, nmul FOps (B754_zero false) v = B754_zero b) by (destruct v; try discriminate Hv; simpl; eauto).
  destruct E as (b & ->). unfold not_minus_zero in Hs. destruct s as [[]|[]| |[] ? ? ?]; destruct b; try reflexivity; congruence.
Qed.

Lemma f64_not_minus_zero : forall s x : f64, not_minus_zero s -> not_minus_zero (nadd FOps s x).
Proof.
  intros s x Hs. unfold not_minus_zero. intros E.
  destruct (is_finite s) eqn:Fs; destruct (is_finite x) eqn:Fx.
  - pose proof (@Bplus_correct 53 1024 f64_prec f64_emax mode_NE s x Fs Fx) as C.
    change (Bplus mode_NE s x) with (nadd FOps s x) in C. rewrite E in C.
    destruct (Rlt_bool _ _).
    + destruct C as (C1 & _ & C3). simpl in C1, C3.
      assert (Z : (B2R s + B2R x = 0)%R).
      { destruct (Req_dec (B2R s + B2R x) 0) as [H|H]; [exact H|]. exfalso.
        pose proof (fexp_correct 53 1024 f64_prec) as V. pose proof (fexp_monotone 53 1024) as M.
        refine (round_plus_neq_0 radix2 (SpecFloat.fexp 53 1024) (round_mode mode_NE) (B2R s) (B2R x) _ _ H (eq_sym C1)); apply generic_format_B2R. }
      rewrite Z in C3. rewrite Rcompare_Eq in C3 by reflexivity. symmetry in C3. apply andb_true_iff in C3. destruct C3 as [S1 S2].
      destruct s as [[]| | |[] ms es Bs]; try discriminate; [apply Hs; reflexivity|].
      assert (B2R (B754_finite true ms es Bs) < 0)%R by (apply F2R_lt_0; reflexivity).
      assert (B2R x <= 0)%R; [|lra]. destruct x as [| | |[] mx ex Bx]; try discriminate; simpl.
      apply Rlt_le. apply F2R_lt_0. reflexivity.
    + destruct C as [C _]. discriminate C.
  - destruct s as [[]|[]| |[] ? ? ?], x as [[]|[]| |[] ? ? ?]; discriminate.
  - destruct s as [[]|[]| |[] ? ? ?], x as [[]|[]| |[] ? ? ?]; discriminate.
  - destruct s as [[]|[]| |[] ? ? ?], x as [[]|[]| |[] ? ? ?]; discriminate.
Qed.

(** ** Coordinates that are no finite numbers *)

Section Coordinates.
Context {O : NumOps}.

(** No bin number can be computed from [x]. *)
Definition no_index (x : num O) : Prop := forall a h, nfloor O (ndiv O (nsub O x a) h) = None.
(** [x] is not found to be outside either. *)
Definition incomparable (x : num O) : Prop := forall a, nltb O x a = false /\ nltb O a x = false.

Lemma indices_bad : forall n (c mn mx inc : list (num O)) term, List.length c = n -> List.length mn = n -> List.length mx = n ->
  List.length inc = n -> List.length term = n -> Exists no_index c ->
  (exists t, bin_indices_loop n c mn mx inc term = RThrow t DomainError) \/ bin_indices_loop n c mn mx inc term = RUB UBBadConversion.
Proof.
  induction n as [|n IH]; intros c mn mx inc term L1 L2 L3 L4 L5 H.
  - destruct c; [inversion H|discriminate].
  - destruct c as [|x c], mn as [|a mn], mx as [|z mx], inc as [|h inc], term as [|y term]; try discriminate.
    cbn [bin_indices_loop]. destruct (nltb O x a || nltb O z x); [left; eauto|].
    inversion H as [? ? Hx|? ? Hc]; subst.
    + unfold floor_to_int. rewrite Hx. right. reflexivity.
    + unfold floor_to_int. destruct (nfloor O (ndiv O (nsub O x a) h)) as [k|]; [|right; reflexivity].
      destruct (in_int k); [|right; reflexivity].
      destruct (IH c mn mx inc term) as [(t & ->)| ->]; try (simpl in *; lia); auto. left. eauto.
Qed.

Lemma indices_first : forall n x (c mn mx inc : list (num O)) term, List.length mn = S n -> List.length mx = S n ->
  List.length inc = S n -> List.length term = S n -> no_index x -> incomparable x ->
  bin_indices_loop (S n) (x :: c) mn mx inc term = RUB UBBadConversion.
Proof.
  intros n x c mn mx inc term L2 L3 L4 L5 Hx Hi. destruct mn as [|a mn], mx as [|z mx], inc as [|h inc], term as [|y term]; try discriminate.
  cbn [bin_indices_loop]. rewrite (proj1 (Hi a)), (proj2 (Hi z)). unfold floor_to_int. rewrite Hx. reflexivity.
Qed.

Context {K : kind O}.

(** The search grid of a mesh has one axis per coordinate. *)
Lemma mesh_of_grid : forall pts cells (m : mesh O K), answering (K := K) -> mesh_of pts cells m ->
  exists mn inc mx N, bin_inv mn inc mx N (me_bin m) /\ List.length N = kdim K /\ List.length mn = kdim K /\ List.length inc = kdim K /\
    List.length mx = kdim K.
Proof.
  intros pts cells m [Hd _] (m1 & H & H2). unfold mesh_points, mbind, mmod, mlift in H.
  destruct (omap (fun j => axis_grid (column pts j)) (seq 0 (kdim K))) as [ax| | | |] eqn:Eax; try discriminate.
  destruct (bin_make (map ax_min ax) (map ax_incr ax) (map ax_N ax)) as [b| | | |] eqn:Eb; try discriminate.
  injection H as <-. apply omap_ok in Eax.
  assert (Hl : List.length ax = kdim K).
  { rewrite <- (seq_length (kdim K) 0). clear -Eax. induction Eax; simpl; auto. }
  assert (HN : Forall (fun n => 0 < n) (map ax_N ax)).
  { apply Forall_map. clear -Eax. induction Eax as [|j a js ax H Hs IH]; constructor; auto.
    unfold axis_grid in H. destruct (existsb _ _); try discriminate.
    destruct (axis_sort _) as [|x l]; try discriminate.
    apply obind_ok in H. destruct H as (n & Hn & H). apply obind_ok in H. destruct H as (n2 & Hn2 & H).
    injection H as <-. simpl. apply cint_inv in Hn. apply cint_inv in Hn2. lia. }
  assert (L1 : List.length (map ax_min ax) = List.length (map ax_N ax)) by (rewrite !map_length; auto).
  assert (L2 : List.length (map ax_incr ax) = List.length (map ax_N ax)) by (rewrite !map_length; auto).
  destruct (max_loop_ok _ _ _ L1 L2) as (mx & Hmx & Lmx).
  assert (HP : proper_shape (map ax_N ax)).
  { pose proof Eb as H'. unfold bin_make in H'. rewrite Hmx in H'. cbn [obind] in H'.
    destruct (nd_make [] (map ax_N ax)) as [s| | | |] eqn:E; try discriminate. eapply nd_make_fits; eauto.
    destruct ax; simpl in *; [lia|congruence]. }
  destruct (bin_make_inv (T := interp O (kpoint K)) _ _ mx _ HP L1 L2 Hmx) as (b' & Hb & Hinv & _). rewrite Eb in Hb. injection Hb as <-.
  assert (G : List.length mx = List.length (map ax_N ax)) by (clear -Lmx; induction Lmx; simpl; auto). rewrite map_length, Hl in G.
  exists (map ax_min ax), (map ax_incr ax), mx, (map ax_N ax). rewrite !map_length. split; [|auto].
  clear -Hinv H2. unfold mesh_cells, mbind, mget in H2.
  destruct (cells_loop 0 cells _) as [m2 []| | | |] eqn:E; try discriminate.
  assert (B : me_bin m2 = b).
  { assert (G : forall cells i (x x' : mesh O K), cells_loop i cells x = RRet x' tt -> me_bin x' = me_bin x).
    { clear. induction cells as [|c cells IH]; intros i x x' H; [injection H as <-; auto|].
      cbn [cells_loop] in H. unfold mbind, mget, mlift, mput in H. destruct (cell_interp _ _ _); try discriminate.
      apply IH in H. exact H. }
    apply G in E. exact E. }
  rewrite <- B in Hinv. clear E B. revert H2 Hinv. generalize (me_interp m2). intros its. revert m2.
  induction its as [|it its IH]; intros m2 H2 Hinv; [injection H2 as <-; exact Hinv|].
  cbn [mfor] in H2. unfold mbind in H2. destruct (on_bin _ m2) as [m3 []| | | |] eqn:E; try discriminate.
  apply on_bin_ret in E. destruct E as (b2 & E & ->). apply (IH _ H2). cbn [me_bin].
  eapply (proj2 (add_range_inv_steps it _ _ _ b2 (or_introl (ex_intro _ tt E)))). exact Hinv.
Qed.

Lemma view_bad : forall pts cells (m : mesh O K) c, answering (K := K) -> mesh_of pts cells m -> List.length (kcoords K c) = kdim K ->
  Exists no_index (kcoords K c) -> view (me_bin m) (kcoords K c) = Throw DomainError \/ view (me_bin m) (kcoords K c) = UB UBBadConversion.
Proof.
  intros pts cells m c Ha Hof Hl Hb. destruct (mesh_of_grid _ _ _ Ha Hof) as (mn & inc & mx & N & Hinv & LN & L1 & L2 & L3).
  unfold view, bin_contents, mbind, bin_find, bin_indices_into.
  rewrite (order_length _ _ _ _ _ Hinv), (inv_min _ _ _ _ _ Hinv), (inv_max _ _ _ _ _ Hinv), (inv_incr _ _ _ _ _ Hinv).
  destruct (indices_bad (List.length N) (kcoords K c) mn mx inc (bin_indices (me_bin m))) as [(t & ->)| ->]; try congruence.
  - apply (inv_ind _ _ _ _ _ Hinv).
  - left. reflexivity.
  - right. reflexivity.
Qed.

Lemma view_first : forall pts cells (m : mesh O K) c x r, answering (K := K) -> mesh_of pts cells m -> kcoords K c = x :: r ->
  no_index x -> incomparable x -> view (me_bin m) (kcoords K c) = UB UBBadConversion.
Proof.
  intros pts cells m c x r Ha Hof Hc Hx Hi. destruct (mesh_of_grid _ _ _ Ha Hof) as (mn & inc & mx & N & Hinv & LN & L1 & L2 & L3).
  unfold view, bin_contents, mbind, bin_find, bin_indices_into.
  rewrite (order_length _ _ _ _ _ Hinv), (inv_min _ _ _ _ _ Hinv), (inv_max _ _ _ _ _ Hinv), (inv_incr _ _ _ _ _ Hinv), Hc.
  pose proof (inv_ind _ _ _ _ _ Hinv) as LI. destruct Ha as [Hd _].
  destruct (List.length N) as [|n] eqn:En; [lia|]. rewrite (indices_first n x r mn mx inc (bin_indices (me_bin m))); auto; congruence.
Qed.
End Coordinates.

Lemma f64_no_index : forall x : f64, is_finite x = false -> no_index (O := FOps) x.
Proof.
  intros x Hx a h. destruct x as [s|s| |s mx ex Bx]; try discriminate Hx; simpl.
  - destruct a as [sa|sa| |sa ma ea Ba]; simpl; try (destruct s, sa; simpl); destruct h as [sh|sh| |sh mh eh Bh]; reflexivity.
  - destruct a; destruct h; reflexivity.
Qed.

Lemma f64_nan_incomparable : incomparable (O := FOps) B754_nan.
Proof. intros a. split; destruct a as [[]|[]| |[] ? ? ?]; reflexivity. Qed.

(** ** Statements for the two kinds of mesh *)

Lemma forall_true : forall (A : Type) (l : list A), Forall (fun _ => True) l.
Proof. intros A l. apply Forall_forall. auto. Qed.

Lemma quad_elem : forall O nd el p h k, it_elem (kvalues (quad_kind O) nd el p h k) = el /\ it_node (kvalues (quad_kind O) nd el p h k) = nd.
Proof. intros O nd el p h k. split; reflexivity. Qed.
Lemma hex_elem : forall O nd el p h k, it_elem (kvalues (hex_kind O) nd el p h k) = el /\ it_node (kvalues (hex_kind O) nd el p h k) = nd.
Proof. intros O nd el p h k. split; reflexivity. Qed.

Lemma corner_agree : forall (A : Type) (d1 d2 : list A) cell n, (forall k i, 0 <= k < Z.of_nat n -> vget cell k = Ok i -> vget d1 i = vget d2 i) ->
  forall k i, (k < n)%nat -> vget cell (Z.of_nat k) = Ok i -> vget d1 i = vget d2 i.
Proof. intros A d1 d2 cell n H k i Hk. apply H. lia. Qed.

(** Points of the meshed region are claimed. *)
Lemma rect_claimed : forall pts cells (m : mesh ROps (quad_kind ROps)) r, rect_mesh pts cells -> mesh_of (K := quad_kind ROps) pts cells m ->
  in_mesh2 pts cells r -> claimed (K := quad_kind ROps) m r.
Proof.
  intros pts cells m r Hr Hof Hin. destruct (rect_reads _ _ Hr) as (m1 & elems & ax & _ & Hm & H3). rewrite <- (H3 _ Hof) in Hm.
  destruct (point_claimed _ _ _ _ _ _ Hm Hin) as (_ & l & it & Hv & Hf). exists l, it. apply find_some in Hf. destruct Hf. auto.
Qed.

Lemma box_claimed : forall pts cells (m : mesh ROps (hex_kind ROps)) r, box_mesh pts cells -> mesh_of (K := hex_kind ROps) pts cells m ->
  in_mesh3 pts cells r -> claimed (K := hex_kind ROps) m r.
Proof.
  intros pts cells m r Hr Hof (cell & lo & h & Hin & Hcell & Hbox). destruct (box_reads _ _ Hr) as (m1 & elems & ax & _ & Hm & H3).
  rewrite <- (H3 _ Hof) in Hm. clear H3.
  assert (Hg : gcell (K := hex_kind ROps) corner3 positive3 pts cell (lo, h)) by (apply gcell_box; exact Hcell).
  assert (Hpos : positive3 h) by (destruct Hcell; auto).
  pose proof (proj1 (in_box_below lo h r Hpos) Hbox) as [Hb1 Hb2].
  destruct (proj2 (hex_range_iff (fun _ => 0) 0 lo h r Hpos) (conj (proj1 Hbox) (proj1 (proj2 Hbox)))) as (k & Hk & Hkr).
  destruct (element_accepts (K := hex_kind ROps) x_coords corner3 hi3 positive3 x_far x_ends pts cells elems ax m cell (lo, h) r k Hm Hg Hb1 Hb2 Hk Hkr)
    as (Hacc & _ & Hins).
  pose proof (md_view _ _ _ _ _ _ _ Hm _ Hins) as Hv.
  apply In_nth_error in Hin. destruct Hin as (j & Ec).
  destruct (built_nth _ _ _ _ _ _ _ (md_built _ _ _ _ _ _ _ Hm) Ec) as ([lo' h'] & Ee).
  pose proof (nth_gcell _ _ _ _ _ _ _ _ (md_cells _ _ _ _ _ _ _ Hm) Ec Ee) as Hg'. apply gcell_box in Hg'.
  assert (Heq : lo' = lo /\ h' = h) by exact (cell_box_fun _ _ _ _ _ _ Hg' Hcell). destruct Heq as [-> ->].
  pose proof (built_filter (K := hex_kind ROps) x_dim corner3 hi3 x_box _ _ _ _ _ _ _ (md_built _ _ _ _ _ _ _ Hm) Ec Ee) as B. cbn [Z.add] in B.
  destruct (Forall2_in_l _ _ _ _ _ _ B Hk) as (it & Hit & _ & n & Hn & Eit).
  destruct (block_item (K := hex_kind ROps) corner3 hi3 x_box _ _ _ _ _ B Hit) as (_ & Emin & Emax & _).
  eexists. exists it. split; [exact Hv|]. split.
  { apply filter_In. apply filter_In in Hit. split; [apply Hit|]. unfold cov. rewrite Emin, Emax. apply Hacc. }
  rewrite Eit. rewrite (proj2 (x_indep n _ _ _ k)). exact Hkr.
Qed.

Lemma local_real_2d : forall pts cells (m : mesh ROps (quad_kind ROps)) r, rect_mesh pts cells -> mesh_of (K := quad_kind ROps) pts cells m -> in_mesh2 pts cells r ->
  exists cell, In cell cells /\ forall data1 data2 p1 p2 q,
    field_on (F := scalar_field ROps) m data1 0%R p1 -> field_on (F := scalar_field ROps) m data2 0%R p2 ->
    (forall k n, 0 <= k < 4 -> vget cell k = Ok n -> vget data1 n = vget data2 n) -> on_axes 2 q ->
    exists a, (forall h m' p', field_history (m, p1) h (m', p') -> exists s, field_eval (K := quad_kind ROps) q r (m', p') = RRet s a) /\
              (forall h m' p', field_history (m, p2) h (m', p') -> exists s, field_eval (K := quad_kind ROps) q r (m', p') = RRet s a).
Proof.
  intros pts cells m r Hr Hof Hc. apply (rect_claimed _ _ m) in Hc; auto.
  destruct (local_data (K := quad_kind ROps) (fun _ => True) (fun _ => True) I (fun _ _ _ => I) (fun s v _ _ => real_skip s v) (quad_elem ROps)
    pts cells m r (quad_answering ROps) Hof Hc) as (cell & Hin & H). exists cell. split; [exact Hin|].
  intros data1 data2 p1 p2 q H1 H2 Hag Hq.
  exact (H data1 data2 p1 p2 q H1 H2 (forall_true _ _) (forall_true _ _) (corner_agree _ _ _ _ 4 Hag) Hq).
Qed.

Lemma local_real_3d : forall pts cells (m : mesh ROps (hex_kind ROps)) r, box_mesh pts cells -> mesh_of (K := hex_kind ROps) pts cells m -> in_mesh3 pts cells r ->
  exists cell, In cell cells /\ forall data1 data2 p1 p2 q,
    field_on (F := scalar_field ROps) m data1 0%R p1 -> field_on (F := scalar_field ROps) m data2 0%R p2 ->
    (forall k n, 0 <= k < 8 -> vget cell k = Ok n -> vget data1 n = vget data2 n) -> on_axes 3 q ->
    exists a, (forall h m' p', field_history (m, p1) h (m', p') -> exists s, field_eval (K := hex_kind ROps) q r (m', p') = RRet s a) /\
              (forall h m' p', field_history (m, p2) h (m', p') -> exists s, field_eval (K := hex_kind ROps) q r (m', p') = RRet s a).
Proof.
  intros pts cells m r Hr Hof Hc. apply (box_claimed _ _ m) in Hc; auto.
  destruct (local_data (K := hex_kind ROps) (fun _ => True) (fun _ => True) I (fun _ _ _ => I) (fun s v _ _ => real_skip s v) (hex_elem ROps)
    pts cells m r (hex_answering ROps) Hof Hc) as (cell & Hin & H). exists cell. split; [exact Hin|].
  intros data1 data2 p1 p2 q H1 H2 Hag Hq.
  exact (H data1 data2 p1 p2 q H1 H2 (forall_true _ _) (forall_true _ _) (corner_agree _ _ _ _ 8 Hag) Hq).
Qed.

Lemma f64_zero_plain : not_minus_zero (nofZ FOps 0).
Proof. rewrite f64_zero. discriminate. Qed.

Lemma local_f64_2d : forall pts cells (m : mesh FOps (quad_kind FOps)) c, mesh_of pts cells m -> claimed m c ->
  exists cell, In cell cells /\ forall data1 data2 p1 p2 q,
    field_on (F := scalar_field FOps) m data1 (nofZ FOps 0) p1 -> field_on (F := scalar_field FOps) m data2 (nofZ FOps 0) p2 ->
    Forall (fun x : f64 => is_finite x = true) data1 -> Forall (fun x : f64 => is_finite x = true) data2 ->
    (forall k n, 0 <= k < 4 -> vget cell k = Ok n -> vget data1 n = vget data2 n) -> on_axes 2 q ->
    exists a, (forall h m' p', field_history (m, p1) h (m', p') -> exists s, field_eval q c (m', p') = RRet s a) /\
              (forall h m' p', field_history (m, p2) h (m', p') -> exists s, field_eval q c (m', p') = RRet s a).
Proof.
  intros pts cells m c Hof Hc.
  destruct (local_data (K := quad_kind FOps) not_minus_zero (fun x => is_finite x = true) f64_zero_plain f64_not_minus_zero f64_skip (quad_elem FOps)
    pts cells m c (quad_answering FOps) Hof Hc) as (cell & Hin & H). exists cell. split; [exact Hin|].
  intros data1 data2 p1 p2 q H1 H2 T1 T2 Hag Hq.
  exact (H data1 data2 p1 p2 q H1 H2 T1 T2 (corner_agree _ _ _ _ 4 Hag) Hq).
Qed.

Lemma local_f64_3d : forall pts cells (m : mesh FOps (hex_kind FOps)) c, mesh_of pts cells m -> claimed m c ->
  exists cell, In cell cells /\ forall data1 data2 p1 p2 q,
    field_on (F := scalar_field FOps) m data1 (nofZ FOps 0) p1 -> field_on (F := scalar_field FOps) m data2 (nofZ FOps 0) p2 ->
    Forall (fun x : f64 => is_finite x = true) data1 -> Forall (fun x : f64 => is_finite x = true) data2 ->
    (forall k n, 0 <= k < 8 -> vget cell k = Ok n -> vget data1 n = vget data2 n) -> on_axes 3 q ->
    exists a, (forall h m' p', field_history (m, p1) h (m', p') -> exists s, field_eval q c (m', p') = RRet s a) /\
              (forall h m' p', field_history (m, p2) h (m', p') -> exists s, field_eval q c (m', p') = RRet s a).
Proof.
  intros pts cells m c Hof Hc.
  destruct (local_data (K := hex_kind FOps) not_minus_zero (fun x => is_finite x = true) f64_zero_plain f64_not_minus_zero f64_skip (hex_elem FOps)
    pts cells m c (hex_answering FOps) Hof Hc) as (cell & Hin & H). exists cell. split; [exact Hin|].
  intros data1 data2 p1 p2 q H1 H2 T1 T2 Hag Hq.
  exact (H data1 data2 p1 p2 q H1 H2 T1 T2 (corner_agree _ _ _ _ 8 Hag) Hq).
Qed.

Lemma not_finite_any : forall (K : kind FOps) pts cells (m : mesh FOps K) data p0 c h m' p' q, answering (K := K) ->
  (forall c : kpoint K, List.length (kcoords K c) = kdim K) ->
  mesh_of pts cells m -> field_on (F := scalar_field FOps) m data (nofZ FOps 0) p0 -> field_history (m, p0) h (m', p') -> on_axes (kdim K) q ->
  Exists (fun x : f64 => is_finite x = false) (kcoords K c) ->
  (exists s, field_eval q c (m', p') = RThrow s DomainError) \/ field_eval q c (m', p') = RUB UBBadConversion.
Proof.
  intros K pts cells m data p0 c h m' p' q Ha Hl Hof Hon Hh Hq Hx.
  pose proof (field_safe (K := K) m data (nofZ FOps 0) p0 h m' p' q c Ha Hon Hh Hq) as S.
  assert (Hb : Exists (no_index (O := FOps)) (kcoords K c)).
  { apply Exists_exists in Hx. destruct Hx as (x & Hin & Hx). apply Exists_exists. exists x. split; [exact Hin|]. apply f64_no_index. exact Hx. }
  destruct (view_bad pts cells m c Ha Hof (Hl c) Hb) as [E|E]; rewrite E in S; auto.
Qed.

Lemma not_finite_2d : forall pts cells (m : mesh FOps (quad_kind FOps)) data p0 (c : f64 * f64) h m' p' q,
  mesh_of pts cells m -> field_on (F := scalar_field FOps) m data (nofZ FOps 0) p0 -> field_history (m, p0) h (m', p') -> on_axes 2 q ->
  is_finite (fst c) = false \/ is_finite (snd c) = false ->
  (exists s, field_eval (K := quad_kind FOps) q c (m', p') = RThrow s DomainError) \/ field_eval (K := quad_kind FOps) q c (m', p') = RUB UBBadConversion.
Proof.
  intros pts cells m data p0 c h m' p' q Hof Hon Hh Hq Hx.
  refine (not_finite_any (quad_kind FOps) pts cells m data p0 c h m' p' q (quad_answering FOps) (fun _ => eq_refl) Hof Hon Hh Hq _).
  simpl. destruct Hx as [Hx|Hx]; [left|right; left]; exact Hx.
Qed.

Lemma not_finite_3d : forall pts cells (m : mesh FOps (hex_kind FOps)) data p0 (c : c3 FOps) h m' p' q,
  mesh_of pts cells m -> field_on (F := scalar_field FOps) m data (nofZ FOps 0) p0 -> field_history (m, p0) h (m', p') -> on_axes 3 q ->
  is_finite (cx c : f64) = false \/ is_finite (cy c : f64) = false \/ is_finite (cz c : f64) = false ->
  (exists s, field_eval (K := hex_kind FOps) q c (m', p') = RThrow s DomainError) \/ field_eval (K := hex_kind FOps) q c (m', p') = RUB UBBadConversion.
Proof.
  intros pts cells m data p0 c h m' p' q Hof Hon Hh Hq Hx.
  refine (not_finite_any (hex_kind FOps) pts cells m data p0 c h m' p' q (hex_answering FOps) (fun _ => eq_refl) Hof Hon Hh Hq _).
  simpl. destruct Hx as [Hx|[Hx|Hx]]; [left|right; left|right; right; left]; exact Hx.
Qed.

Lemma nan_2d : forall pts cells (m : mesh FOps (quad_kind FOps)) data p0 (y : f64) h m' p' q,
  mesh_of pts cells m -> field_on (F := scalar_field FOps) m data (nofZ FOps 0) p0 -> field_history (m, p0) h (m', p') -> on_axes 2 q ->
  field_eval (K := quad_kind FOps) q (B754_nan : f64, y) (m', p') = RUB UBBadConversion.
Proof.
  intros pts cells m data p0 y h m' p' q Hof Hon Hh Hq.
  pose proof (field_safe (K := quad_kind FOps) m data (nofZ FOps 0) p0 h m' p' q (B754_nan : f64, y) (quad_answering FOps) Hon Hh Hq) as S.
  rewrite (view_first (K := quad_kind FOps) pts cells m (B754_nan : f64, y) B754_nan [y] (quad_answering FOps) Hof eq_refl
    (f64_no_index B754_nan eq_refl) f64_nan_incomparable) in S. exact S.
Qed.

Lemma nan_3d : forall pts cells (m : mesh FOps (hex_kind FOps)) data p0 (y z : f64) h m' p' q,
  mesh_of pts cells m -> field_on (F := scalar_field FOps) m data (nofZ FOps 0) p0 -> field_history (m, p0) h (m', p') -> on_axes 3 q ->
  field_eval (K := hex_kind FOps) q (@mkC3 FOps B754_nan y z) (m', p') = RUB UBBadConversion.
Proof.
  intros pts cells m data p0 y z h m' p' q Hof Hon Hh Hq.
  pose proof (field_safe (K := hex_kind FOps) m data (nofZ FOps 0) p0 h m' p' q (@mkC3 FOps B754_nan y z) (hex_answering FOps) Hon Hh Hq) as S.
  rewrite (view_first (K := hex_kind FOps) pts cells m (@mkC3 FOps B754_nan y z) B754_nan [y; z] (hex_answering FOps) Hof eq_refl
    (f64_no_index B754_nan eq_refl) f64_nan_incomparable) in S. exact S.
Qed.
