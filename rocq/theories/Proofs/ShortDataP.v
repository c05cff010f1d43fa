(** Fields with fewer data than the mesh has nodes. *)
From Flocq Require Import Core.
From Coquelicot Require Import Coquelicot.
From Coq Require Import ZArith List Bool Ascii Lia ZifyBool Reals Lra String.
From Verif Require Import Model.Outcome Model.Num Model.NumInst Model.PNDArray Model.Bin Model.PSimple Model.Interpolator
  Model.Quad Model.Hexahedron Model.Mesh Model.PField Model.Stream Model.Vtk.
From Verif Require Import Spec.Tensor Spec.NDHistory Spec.Grid Spec.Funcs Spec.Shape Spec.Fields Spec.Vtk.
From Verif Require Import Proofs.OutcomeP Proofs.PNDArrayP Proofs.BinP Proofs.BinRP Proofs.MeshP Proofs.ShapeP Proofs.FieldP
  Proofs.MeshReadP Proofs.AxisP Proofs.MeshRP Proofs.RectP Proofs.HexP Proofs.RereadP.
Import ListNotations.
Local Open Scope Z_scope.

Section Short.
Context {O : NumOps} {K : kind O} {F : FieldOps O}.
Local Notation ip := (interp O (kpoint K)).
Local Notation state := (mesh O K * pfield F)%type.

Lemma basis_mesh : forall f c (m m' : mesh O K) sc sc' s, (mesh_basis f c (m, sc) = RRet (m', sc') s \/ exists e, mesh_basis f c (m, sc) = RThrow (m', sc') e) ->
  same_mesh m m'.
Proof.
  intros f c m m' sc sc' s H. unfold mesh_basis in H. cbn [fst snd] in H. pose proof (on_bin_cases (kcoords K c) m) as V.
  destruct (view (me_bin m) (kcoords K c)) as [l|e| |r|].
  - destruct V as (m1 & V & Hm). rewrite V in H. clear V.
    destruct (cint _) as [n|e| |r|]; try (destruct H as [H|(e' & H)]; discriminate).
    + destruct (find _ l) as [it0|].
      * destruct (fill f (it_elem it0) 0 l sc) as [sc1|e| |r|] eqn:E; destruct H as [H|(e' & H)]; try discriminate; injection H as <- _ _; exact Hm.
      * destruct H as [H|(e' & H)]; [|discriminate]. injection H as <- _ _. exact Hm.
    + destruct H as [H|(e' & H)]; [discriminate|]. injection H as <- _ _. exact Hm.
  - destruct V as (m1 & V & Hm). rewrite V in H. destruct H as [H|(e' & H)]; [discriminate|]. injection H as <- _ _. exact Hm.
  - rewrite V in H. destruct H as [H|(e' & H)]; discriminate.
  - rewrite V in H. destruct H as [H|(e' & H)]; discriminate.
  - rewrite V in H. destruct H as [H|(e' & H)]; discriminate.
Qed.

Lemma put_field : forall q a (p p' : pfield F), put q a p = Ok p' -> pf_field p' = pf_field p.
Proof.
  intros [|i|i j] a p p' H; cbn [put] in H.
  - injection H as <-. reflexivity.
  - unfold pf_set_grad in H. apply obind_ok in H. destruct H as (g & _ & H). injection H as <-. reflexivity.
  - unfold pf_set_hess in H. apply obind_ok in H. destruct H as (g & _ & H). apply obind_ok in H. destruct H as (g' & _ & H).
    apply obind_ok in H. destruct H as (g2 & _ & H). injection H as <-. reflexivity.
Qed.

Lemma eval_still : forall q c (m m' : mesh O K) (p p' : pfield F), ((exists a, field_eval q c (m, p) = RRet (m', p') a) \/ exists e, field_eval q c (m, p) = RThrow (m', p') e) ->
  same_mesh m m' /\ pf_field p' = pf_field p.
Proof.
  intros q c m m' p p' H. rewrite field_eval_with in H. unfold pf_eval_with in H. cbn [fst snd] in H.
  destruct (mesh_basis (ask q c) c (m, pf_sc p)) as [[m1 sc1] s|[m1 sc1] e| |r|] eqn:E;
    try (destruct H as [(a & H)|(e' & H)]; discriminate).
  - assert (R := basis_mesh _ _ _ _ _ _ s (or_introl E)).
    destruct (pf_sum s (pf_set_sc sc1 p)) as [x|e| |r|]; cbn [obind] in H; try (destruct H as [(a & H)|(e' & H)]; discriminate).
    + destruct (put q x (pf_set_sc sc1 p)) as [p1|e| |r|] eqn:Ep; cbn [obind] in H; try (destruct H as [(a & H)|(e' & H)]; discriminate).
      * destruct H as [(a & H)|(e' & H)]; [|discriminate]. injection H as <- <- _. split; [exact R|]. rewrite (put_field _ _ _ _ Ep). reflexivity.
      * destruct H as [(a & H)|(e' & H)]; [discriminate|]. injection H as <- <- _. split; [exact R|reflexivity].
    + destruct H as [(a & H)|(e' & H)]; [discriminate|]. injection H as <- <- _. split; [exact R|reflexivity].
  - assert (R := basis_mesh _ _ _ _ _ _ 0 (or_intror (ex_intro _ e E))).
    destruct H as [(a & H)|(e' & H)]; [discriminate|]. injection H as <- <- _. split; [exact R|reflexivity].
Qed.

Lemma history_still : forall (s s' : state) h, field_history s h s' -> same_mesh (fst s) (fst s') /\ pf_field (snd s') = pf_field (snd s).
Proof.
  intros s s' h H. induction H as [|h s1 q c a s2 H IH Hq He|h s1 q c e s2 H IH Hq He]; [split; [apply same_mesh_refl|reflexivity]| |].
  - destruct s1 as [m1 p1], s2 as [m2 p2], IH as [IH1 IH2]. cbn [fst snd] in *.
    destruct (eval_still q c m1 m2 p1 p2 (or_introl (ex_intro _ a He))) as [R1 R2].
    split; [eapply same_mesh_trans; eauto|congruence].
  - destruct s1 as [m1 p1], s2 as [m2 p2], IH as [IH1 IH2]. cbn [fst snd] in *.
    destruct (eval_still q c m1 m2 p1 p2 (or_intror (ex_intro _ e He))) as [R1 R2].
    split; [eapply same_mesh_trans; eauto|congruence].
Qed.

(** The sum stops at the first node without datum. *)
Lemma sum_short : forall (p : pfield F) ws ns bs rs, sc_bf (pf_sc p) = ws ++ bs -> sc_ni (pf_sc p) = ns ++ rs ->
  List.length ws = List.length ns -> Exists (fun n => Z.of_nat (List.length (pf_field p)) <= n) ns ->
  pf_sum (Z.of_nat (List.length ns)) p = UB UBOutOfBounds.
Proof.
  intros p ws ns bs rs Hb Hn Hl Hv. unfold pf_sum. rewrite Nat2Z.id. rewrite Hb, Hn. generalize (pf_zero p) as z.
  assert (G : forall ns ws w0 n0 z, List.length ws = List.length ns -> List.length w0 = List.length n0 ->
    Exists (fun n => Z.of_nat (List.length (pf_field p)) <= n) ns ->
    ofold (fun acc i =>
      let* b := vget (w0 ++ ws ++ bs) i in
      let* n := vget (n0 ++ ns ++ rs) i in
      let* v := vget (pf_field p) n in
      Ok (ft_add F acc (ft_scale F b v))) (map Z.of_nat (seq (List.length w0) (List.length ns))) z = UB UBOutOfBounds).
  { clear. induction ns as [|n ns IH]; intros ws w0 n0 z Hl H0 He; [inversion He|].
    destruct ws as [|w ws]; [discriminate|]. simpl in Hl.
    cbn [List.length seq map ofold]. cbn [app].
    rewrite vget_mid. cbn [obind]. rewrite H0 at 1. rewrite vget_mid. cbn [obind].
    destruct (vget (pf_field p) n) as [v|e| |r|] eqn:Ev; cbn [obind].
    2-5: unfold vget in Ev; destruct (0 <=? n); [destruct (nth_error (pf_field p) (Z.to_nat n))|]; try discriminate; congruence.
    specialize (IH ws (w0 ++ [w]) (n0 ++ [n]) (ft_add F z (ft_scale F w v)) ltac:(lia)). rewrite !app_length in IH. simpl in IH.
    rewrite <- !app_assoc in IH. simpl in IH. rewrite Nat.add_1_r in IH. apply IH; [lia|].
    inversion He as [? ? Hh|? ? Ht]; subst; [|exact Ht].
    assert (0 <= n < Z.of_nat (List.length (pf_field p))) by (apply vget_ok_iff; eauto). lia. }
  intros z. apply (G ns ws [] [] z Hl eq_refl Hv).
Qed.

Lemma short_eval : forall name (m0 : mesh O K) (data : list (ft F)) zero p0 mx c l q h m p, answering (K := K) -> mesh_read m0 ->
  mesh_max_bin_size m0 = Ok mx -> mx <= int_max -> pf_new name m0 data zero = Ok p0 ->
  view (me_bin m0) (kcoords K c) = Ok l -> (exists it, In it l /\ it_range it c = true) ->
  (exists it, In it l /\ Z.of_nat (List.length data) <= it_node it) ->
  field_history (m0, p0) h (m, p) -> on_axes (kdim K) q -> field_eval q c (m, p) = RUB UBOutOfBounds.
Proof.
  intros name m0 data zero p0 mx c l q h m p Ha Hr Hmx Hmxi Hp0 Hv (it1 & Hi1 & Hr1) (it2 & Hi2 & Hd2) Hh Hq.
  pose proof (mesh_read_inv m0 Ha Hr) as Hinv. pose proof (mi_bin _ Hinv) as Hg.
  pose proof (pf_new_ok name m0 data zero p0 Hg Hp0) as Hok.
  destruct (history_still _ _ _ Hh) as [Hs Hfd]. pose proof (history_room _ _ _ Hh) as Hroom. cbn [fst snd] in *.
  pose proof (fk_field _ _ _ _ Hok) as Hf0. cbn [snd] in Hf0.
  assert (Hv' : view (me_bin m) (kcoords K c) = Ok l).
  { rewrite <- Hv. destruct Hs as (_ & _ & _ & _ & Hs). apply view_same; auto. apply bin_good_indices. exact Hg. }
  assert (Hat : exists t, nd_at (bin_item (me_bin m0)) t = Ok l).
  { unfold view in Hv. destruct (bin_contents (kcoords K c) (me_bin m0)) as [b l'| | | |] eqn:E; try discriminate.
    injection Hv as ->. eapply contents_at; eauto. }
  destruct Hat as (t & Hat).
  pose proof (fk_bf _ _ _ _ Hok _ _ Hat) as Hlb. pose proof (fk_ni _ _ _ _ Hok _ _ Hat) as Hln. cbn [snd] in Hlb, Hln.
  unfold room in Hroom. injection Hroom as Hr2 Hr3. rewrite <- Hr2 in Hlb. rewrite <- Hr3 in Hln.
  destruct (max_size_good (me_bin m0) mx Hg Hmx) as [H0 Hsz].
  rewrite field_eval_with. unfold pf_eval_with. cbn [fst snd].
  pose proof (basis_cases (ask q c) c m (pf_sc p)) as B. rewrite Hv' in B.
  destruct B as (m' & _ & B).
  { pose proof (Hsz _ _ Hat). unfold INT_MAX, int_max in *. lia. }
  destruct (find (fun it => it_range it c) l) as [it0|] eqn:Ef.
  2:{ pose proof (find_none _ _ Ef _ Hi1) as Hno. cbn beta in Hno. congruence. }
  assert (Hasks : Forall (fun it : ip => forall q c, on_axes (kdim K) q -> exists w, ask q c it = Ok w) l).
  { pose proof (mi_items _ Hinv _ (nd_at_in _ _ _ _ Hat)) as Hin. pose proof (mi_made _ Hinv) as Hmade.
    rewrite Forall_forall in *. intros it Hit. specialize (Hin it Hit). destruct (Hmade it Hin) as (nd & el & pp & hh & kk & ->). apply Ha. }
  destruct (weigh_total q c (it_elem it0) l Hasks Hq) as (ws & Hws).
  pose proof (fill_ok (ask q c) (it_elem it0) l ws Hws [] [] (sc_bf (pf_sc p)) (sc_ni (pf_sc p)) eq_refl Hlb Hln) as Hfill.
  cbn [app List.length] in Hfill. change (Z.of_nat 0) with 0 in Hfill.
  assert (Esc : mkScratch (sc_bf (pf_sc p)) (sc_ni (pf_sc p)) = pf_sc p) by (destruct (pf_sc p); reflexivity). rewrite Esc in Hfill.
  rewrite (B _ Hfill).
  assert (Hlw : List.length ws = List.length (map (it_node (P := kpoint K)) l)).
  { rewrite map_length. symmetry. clear -Hws. induction Hws; cbn [List.length]; congruence. }
  assert (Hlm : List.length l = List.length (map (it_node (P := kpoint K)) l)) by (rewrite map_length; reflexivity).
  rewrite Hlm.
  erewrite sum_short with (ws := ws); [reflexivity|reflexivity|reflexivity|exact Hlw|].
  cbn [pf_set_sc pf_field]. rewrite Hfd, Hf0. apply Exists_exists. exists (it_node it2). split; [apply in_map; exact Hi2|exact Hd2].
Qed.
End Short.

(** ** Rectangles and boxes, over the reals *)

Section Rect.
Let K := quad_kind ROps.

Lemma rect_short : forall pts cells (m : mesh ROps K) (data : list R) name p0 cell lo h k n r, rect_mesh pts cells -> mesh_of (K := K) pts cells m ->
  pf_new (F := scalar_field ROps) name m data 0%R = Ok p0 ->
  In cell cells -> cell_rect pts cell lo h -> In k corners2 -> vget cell k = Ok n -> Z.of_nat (List.length data) <= n -> in_rect lo h r ->
  forall hist m' p' q, field_history (m, p0) hist (m', p') -> on_axes 2 q -> field_eval (K := K) q r (m', p') = RUB UBOutOfBounds.
Proof.
  intros pts cells m data name p0 cell lo h k n r Hr Hof Hp0 Hin Hcell Hk Hn Hd Hrect hist m' p' q Hh Hq.
  destruct (rect_field_new pts cells m (repeat 0%R (List.length pts)) name Hr Hof ltac:(rewrite repeat_length; apply le_n))
    as (p1 & _ & (Hread & _ & (mx & Hmx & Hmxi) & _)).
  destruct (rect_reads _ _ Hr) as (m0 & elems & ax & _ & Hm & H3). rewrite <- (H3 _ Hof) in Hm. clear H3 m0.
  assert (Hg : gcell (K := K) corner2 positive2 pts cell (lo, h)) by (apply gcell_rect; exact Hcell).
  assert (Hpos : positive2 h) by (destruct Hcell; auto).
  pose proof (proj1 (in_rect_below lo h r Hpos) Hrect) as [Hb1 Hb2].
  destruct (proj2 (quad_range_iff (fun _ => 0) 0 lo h r Hpos) Hrect) as (k1 & Hk1 & Hkr).
  destruct (element_accepts (K := K) q_coords corner2 hi2 positive2 q_far q_ends pts cells elems ax m cell (lo, h) r k1 Hm Hg Hb1 Hb2 Hk1 Hkr)
    as (Hacc & _ & Hins).
  pose proof (md_view _ _ _ _ _ _ _ Hm _ Hins) as Hv.
  apply In_nth_error in Hin. destruct Hin as (j & Ec).
  destruct (built_nth _ _ _ _ _ _ _ (md_built _ _ _ _ _ _ _ Hm) Ec) as ([lo' h'] & Ee).
  pose proof (nth_gcell _ _ _ _ _ _ _ _ (md_cells _ _ _ _ _ _ _ Hm) Ec Ee) as Hg'. apply gcell_rect in Hg'.
  assert (Heq : lo' = lo /\ h' = h) by exact (cell_rect_fun _ _ _ _ _ _ Hg' Hcell). destruct Heq as [-> ->].
  pose proof (built_filter (K := K) q_dim corner2 hi2 q_box _ _ _ _ _ _ _ (md_built _ _ _ _ _ _ _ Hm) Ec Ee) as B. cbn [Z.add] in B.
  assert (Hall : forall it, In it (filter (fun it0 => it_elem it0 =? Z.of_nat j) (me_interp m)) ->
            In it (filter (cov (K := K) (map ax_min ax) (map ax_incr ax) (kcoords K r)) (me_interp m))).
  { intros it Hit. destruct (block_item (K := K) corner2 hi2 q_box _ _ _ _ _ B Hit) as (_ & Emin & Emax & _).
    apply filter_In. apply filter_In in Hit. split; [apply Hit|]. unfold cov. rewrite Emin, Emax. apply Hacc. }
  eapply (short_eval (K := K) (F := scalar_field ROps)); [exact (quad_answering ROps)|exact Hread|exact Hmx|exact Hmxi|exact Hp0|exact Hv| | |exact Hh|exact Hq].
  - destruct (Forall2_in_l _ _ _ _ _ _ B Hk1) as (it & Hit & _ & n1 & _ & Eit). exists it. split; [exact (Hall it Hit)|].
    rewrite Eit. exact (eq_trans (proj2 (q_indep n1 _ _ _ k1) r) Hkr).
  - destruct (Forall2_in_l _ _ _ _ _ _ B Hk) as (it & Hit & _ & n1 & Hn1 & Eit). exists it. split; [exact (Hall it Hit)|].
    assert (n1 = n) by congruence. subst n1. rewrite Eit.
    exact Hd.
Qed.
End Rect.

Section Box.
Let K := hex_kind ROps.

Lemma box_short : forall pts cells (m : mesh ROps K) (data : list R) name p0 cell lo h k n r, box_mesh pts cells -> mesh_of (K := K) pts cells m ->
  pf_new (F := scalar_field ROps) name m data 0%R = Ok p0 ->
  In cell cells -> cell_box pts cell lo h -> In k corners3 -> vget cell k = Ok n -> Z.of_nat (List.length data) <= n -> Shape.in_box lo h r ->
  forall hist m' p' q, field_history (m, p0) hist (m', p') -> on_axes 3 q -> field_eval (K := K) q r (m', p') = RUB UBOutOfBounds.
Proof.
  intros pts cells m data name p0 cell lo h k n r Hr Hof Hp0 Hin Hcell Hk Hn Hd Hrect hist m' p' q Hh Hq.
  destruct (box_field_new pts cells m (repeat 0%R (List.length pts)) name Hr Hof ltac:(rewrite repeat_length; apply le_n))
    as (p1 & _ & (Hread & _ & (mx & Hmx & Hmxi) & _)).
  destruct (box_reads _ _ Hr) as (m0 & elems & ax & _ & Hm & H3). rewrite <- (H3 _ Hof) in Hm. clear H3 m0.
  assert (Hg : gcell (K := K) corner3 positive3 pts cell (lo, h)) by (apply gcell_box; exact Hcell).
  assert (Hpos : positive3 h) by (destruct Hcell; auto).
  pose proof (proj1 (in_box_below lo h r Hpos) Hrect) as [Hb1 Hb2].
  destruct (proj2 (hex_range_iff (fun _ => 0) 0 lo h r Hpos) (conj (proj1 Hrect) (proj1 (proj2 Hrect)))) as (k1 & Hk1 & Hkr).
  destruct (element_accepts (K := K) x_coords corner3 hi3 positive3 x_far x_ends pts cells elems ax m cell (lo, h) r k1 Hm Hg Hb1 Hb2 Hk1 Hkr)
    as (Hacc & _ & Hins).
  pose proof (md_view _ _ _ _ _ _ _ Hm _ Hins) as Hv.
  apply In_nth_error in Hin. destruct Hin as (j & Ec).
  destruct (built_nth _ _ _ _ _ _ _ (md_built _ _ _ _ _ _ _ Hm) Ec) as ([lo' h'] & Ee).
  pose proof (nth_gcell _ _ _ _ _ _ _ _ (md_cells _ _ _ _ _ _ _ Hm) Ec Ee) as Hg'. apply gcell_box in Hg'.
  assert (Heq : lo' = lo /\ h' = h) by exact (cell_box_fun _ _ _ _ _ _ Hg' Hcell). destruct Heq as [-> ->].
  pose proof (built_filter (K := K) x_dim corner3 hi3 x_box _ _ _ _ _ _ _ (md_built _ _ _ _ _ _ _ Hm) Ec Ee) as B. cbn [Z.add] in B.
  assert (Hall : forall it, In it (filter (fun it0 => it_elem it0 =? Z.of_nat j) (me_interp m)) ->
            In it (filter (cov (K := K) (map ax_min ax) (map ax_incr ax) (kcoords K r)) (me_interp m))).
  { intros it Hit. destruct (block_item (K := K) corner3 hi3 x_box _ _ _ _ _ B Hit) as (_ & Emin & Emax & _).
    apply filter_In. apply filter_In in Hit. split; [apply Hit|]. unfold cov. rewrite Emin, Emax. apply Hacc. }
  eapply (short_eval (K := K) (F := scalar_field ROps)); [exact (hex_answering ROps)|exact Hread|exact Hmx|exact Hmxi|exact Hp0|exact Hv| | |exact Hh|exact Hq].
  - destruct (Forall2_in_l _ _ _ _ _ _ B Hk1) as (it & Hit & _ & n1 & _ & Eit). exists it. split; [exact (Hall it Hit)|].
    rewrite Eit. exact (eq_trans (proj2 (x_indep n1 _ _ _ k1) r) Hkr).
  - destruct (Forall2_in_l _ _ _ _ _ _ B Hk) as (it & Hit & _ & n1 & Hn1 & Eit). exists it. split; [exact (Hall it Hit)|].
    assert (n1 = n) by congruence. subst n1. rewrite Eit.
    exact Hd.
Qed.
End Box.
