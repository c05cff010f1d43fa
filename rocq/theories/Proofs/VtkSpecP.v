(** What a file that was read contains; termination of the reading loops. *)
From Coq Require Import ZArith List Bool Ascii String Lia ZifyBool.
From Verif Require Import Model.Outcome Model.Num Model.PNDArray Model.Bin Model.PSimple Model.Interpolator Model.Quad
  Model.Hexahedron Model.Mesh Model.PField Model.Stream Model.Vtk.
From Verif Require Import Spec.Tensor Spec.Shape Spec.Fields Spec.Vtk.
From Verif Require Import Proofs.OutcomeP Proofs.BinP Proofs.MeshP Proofs.MeshReadP Proofs.StreamP Proofs.VtkP.
Import ListNotations.
Local Open Scope Z_scope.

Section Contents.
Context {O : NumOps} {K : kind O}.

Lemma max_size_total : forall (T : Type) (b : bin O T), bin_good b -> exists mx, bin_max_size b = Ok mx.
Proof.
  intros T b [->|(mn & inc & mx & N & H)]; [exists 0; reflexivity|].
  destruct (max_size_spec mn inc mx N b H) as (m & E & _). eauto.
Qed.

Lemma mesh_of_size : forall pts cells (m : mesh O K), answering (K := K) -> mesh_of pts cells m -> exists mx, mesh_max_bin_size m = Ok mx.
Proof.
  intros pts cells m Ha (m1 & H1 & H2). apply max_size_total.
  assert (Hr : mesh_read m) by (eapply MeshCells; [eapply MeshPoints; [apply MeshNew|exact H1]|exact H2]).
  apply (mesh_read_inv m Ha Hr).
Qed.

Lemma mesh_points_node : forall pts (m m' : mesh O K), mesh_points pts m = RRet m' tt ->
  me_node m' = me_node m ++ pts /\ me_interp m' = me_interp m.
Proof.
  intros pts m m' H. unfold mesh_points, mbind, mmod, mlift in H.
  destruct (omap _ _) as [ax| | | |]; try discriminate. destruct (bin_make _ _ _) as [b| | | |]; try discriminate.
  injection H as <-. auto.
Qed.


Lemma Forall2_len : forall (A B : Type) (R : A -> B -> Prop) l l', Forall2 R l l' -> List.length l = List.length l'.
Proof. induction 1; cbn; auto. Qed.

Lemma Forall2_weaken : forall (A B : Type) (R R' : A -> B -> Prop) l l', (forall a b, R a b -> R' a b) -> Forall2 R l l' -> Forall2 R' l l'.
Proof. induction 2; constructor; auto. Qed.

Lemma omap_nth : forall (A B : Type) (f : A -> outcome B) l r, omap f l = Ok r -> forall k a, nth_error l k = Some a ->
  exists b, nth_error r k = Some b /\ f a = Ok b.
Proof.
  intros A B f l r H. apply omap_ok in H. induction H as [|a b l r H HF IH]; intros [|k] x Hx; try discriminate.
  - injection Hx as <-. exists b. auto.
  - apply IH; auto.
Qed.

Lemma cell_interp_ok : forall (node : list (kpoint K)) i cell its, cell_interp node i cell = Ok its -> cell_interpolators node i cell its.
Proof.
  intros node i cell its H. unfold cell_interp in H.
  apply obind_ok in H. destruct H as (nf & Hnf & H). apply obind_ok in H. destruct H as (pf & Hpf & H).
  apply obind_ok in H. destruct H as (n0 & Hn0 & H). apply obind_ok in H. destruct H as (p0 & Hp0 & H).
  split.
  { apply omap_ok in H. assert (E := Forall2_len _ _ _ _ _ H). rewrite seq_length in E. auto. }
  exists n0, p0, nf, pf. repeat (split; [assumption|]). intros j Hj.
  assert (Hs : nth_error (seq 0 (kcorners K)) j = Some j).
  { rewrite (nth_error_nth' _ 0%nat) by (rewrite seq_length; auto). rewrite seq_nth by auto. reflexivity. }
  destruct (omap_nth _ _ _ _ _ H j j Hs) as (it & Hit & Hf). apply obind_ok in Hf. destruct Hf as (n & Hn & Hf).
  apply obind_ok in Hf. destruct Hf as (p & Hp & Hf). injection Hf as <-. exists n, p. auto.
Qed.

Lemma cells_loop_interp : forall cells i (m m' : mesh O K), cells_loop i cells m = RRet m' tt ->
  me_node m' = me_node m /\ exists parts, me_interp m' = me_interp m ++ List.concat parts /\ List.length parts = List.length cells /\
  forall k cell part, nth_error cells k = Some cell -> nth_error parts k = Some part ->
    cell_interpolators (me_node m) (i + Z.of_nat k) cell part.
Proof.
  induction cells as [|c cells IH]; intros i m m' H.
  - cbn [cells_loop] in H. unfold mret in H. injection H as <-. split; auto. exists []. split; [cbn; now rewrite app_nil_r|]. split; auto.
    intros [|k] ? ? ?; discriminate.
  - cbn [cells_loop] in H. unfold mbind, mget, mlift, mput in H.
    destruct (cell_interp (me_node m) i c) as [its| | | |] eqn:Ei; try discriminate.
    destruct (IH _ _ _ H) as (H1 & parts & H2 & H3 & H4). cbn [me_node me_interp] in *. split; [exact H1|].
    exists (its :: parts). split; [cbn [List.concat]; now rewrite app_assoc|]. split; [cbn; auto|].
    intros [|k] cell part Hc Hp; cbn [nth_error] in *.
    + injection Hc as <-. injection Hp as <-. rewrite Z.add_0_r. apply cell_interp_ok; auto.
    + replace (i + Z.of_nat (S k)) with (i + 1 + Z.of_nat k) by lia. eauto.
Qed.

Lemma bin_all_keeps : forall its (m m' : mesh O K),
  mfor its (fun it => on_bin (bin_add_range it (kcoords K (it_min it)) (kcoords K (it_max it)))) m = RRet m' tt ->
  me_node m' = me_node m /\ me_interp m' = me_interp m.
Proof.
  induction its as [|it its IH]; intros m m' H.
  - unfold mfor, mret in H. injection H as <-. auto.
  - cbn [mfor] in H. unfold mbind in H. destruct (on_bin _ m) as [m1 u| | | |] eqn:E; try discriminate.
    apply on_bin_ret in E. destruct E as (b & E & ->). apply IH in H. exact H.
Qed.

Lemma mesh_contents : forall pts cells (m : mesh O K), mesh_of pts cells m -> me_node m = pts /\ all_interpolators pts cells (me_interp m).
Proof.
  intros pts cells m (m1 & H1 & H2). apply mesh_points_node in H1. cbn [mesh_new me_node me_interp app] in H1.
  destruct H1 as [N1 I1]. unfold mesh_cells, mbind, mget in H2. destruct (cells_loop 0 cells m1) as [m2 []| | | |] eqn:E; try discriminate.
  destruct (cells_loop_interp _ _ _ _ E) as (N2 & parts & H3 & H4 & H5). destruct (bin_all_keeps _ _ _ H2) as [N3 I3].
  split; [congruence|]. exists parts. split; [rewrite I3, H3, I1; reflexivity|]. split; [exact H4|].
  intros k cell part Hc Hp. specialize (H5 k cell part Hc Hp). rewrite N1 in H5. exact H5.
Qed.
End Contents.

(** ** Well-formed files *)

Lemma made_named : forall (O : NumOps) (V : vkind O) m f p, made_field V m f p -> named_field f p.
Proof.
  intros O V m f p H. unfold made_field, pf_new in H. apply obind_ok in H. destruct H as (mx & _ & H). injection H as <-.
  split; [|split]; reflexivity.
Qed.

Lemma coords2_point : forall (O : NumOps) (p : c2 O) l, coords2 p l ->
  exists x y z, l = [x; y; z] /\ vk_point (quad_vkind O) (Some x) (Some y) (Some z) = Ok p.
Proof. intros O [x y] l (w & ->). exists x, y, w. split; reflexivity. Qed.
Lemma coords3_point : forall (O : NumOps) (p : c3 O) l, coords3 p l ->
  exists x y z, l = [x; y; z] /\ vk_point (hex_vkind O) (Some x) (Some y) (Some z) = Ok p.
Proof. intros O [x y z] l ->. exists x, y, z. split; reflexivity. Qed.

Lemma read2_ok : forall (O : NumOps) num_text num_scanner pts cells fields t (m : mesh O (quad_kind O)) fuel,
  number_reader num_text num_scanner -> vtk_text num_text coords2 pts cells fields t -> mesh_of (K := quad_kind O) pts cells m ->
  (List.length t < fuel)%nat ->
  exists ps, body_read_vtk (quad_vkind O) num_scanner fuel (Some t) (body_new (quad_vkind O)) = RRet (mkBody (quad_vkind O) m ps) tt /\
    Forall2 (fun f p => pf_new (F := scalar_field O) (string_of_list_ascii (fst f)) m (snd f) (nofZ O 0) = Ok p) fields ps /\
    Forall2 named_field fields ps /\ me_node m = pts /\ all_interpolators (K := quad_kind O) pts cells (me_interp m).
Proof.
  intros O num_text sc pts cells fields t m fuel Hn Ht Hm Hf.
  destruct (mesh_of_size _ _ _ (quad_answering O) Hm) as (mx & Hmx).
  destruct (body_read_ok (quad_vkind O) num_text sc coords2 Hn (coords2_point O) pts cells fields t m mx fuel ltac:(cbn; lia) ltac:(cbn; lia) Ht Hm Hmx Hf)
    as (ps & Hps & E).
  destruct (mesh_contents _ _ _ Hm) as [Hnode Hits]. exists ps. split; [exact E|]. split; [exact Hps|]. split; [|auto].
  eapply Forall2_weaken; [|exact Hps]. intros; eapply made_named; eauto.
Qed.

Lemma read3_ok : forall (O : NumOps) num_text num_scanner pts cells fields t (m : mesh O (hex_kind O)) fuel,
  number_reader num_text num_scanner -> vtk_text num_text coords3 pts cells fields t -> mesh_of (K := hex_kind O) pts cells m ->
  (List.length t < fuel)%nat ->
  exists ps, body_read_vtk (hex_vkind O) num_scanner fuel (Some t) (body_new (hex_vkind O)) = RRet (mkBody (hex_vkind O) m ps) tt /\
    Forall2 (fun f p => pf_new (F := scalar_field O) (string_of_list_ascii (fst f)) m (snd f) (nofZ O 0) = Ok p) fields ps /\
    Forall2 named_field fields ps /\ me_node m = pts /\ all_interpolators (K := hex_kind O) pts cells (me_interp m).
Proof.
  intros O num_text sc pts cells fields t m fuel Hn Ht Hm Hf.
  destruct (mesh_of_size _ _ _ (hex_answering O) Hm) as (mx & Hmx).
  destruct (body_read_ok (hex_vkind O) num_text sc coords3 Hn (coords3_point O) pts cells fields t m mx fuel ltac:(cbn; lia) ltac:(cbn; lia) Ht Hm Hmx Hf)
    as (ps & Hps & E).
  destruct (mesh_contents _ _ _ Hm) as [Hnode Hits]. exists ps. split; [exact E|]. split; [exact Hps|]. split; [|auto].
  eapply Forall2_weaken; [|exact Hps]. intros; eapply made_named; eauto.
Qed.

(** ** Looking fields up *)
Section Find.
Context {O : NumOps} (V : vkind O).

Lemma find_from_spec : forall l i name,
  (exists k p, nth_error l k = Some p /\ pf_name p = name /\ (forall k' p', (k' < k)%nat -> nth_error l k' = Some p' -> pf_name p' <> name) /\
     find_from (O := O) i l name = Ok (i + k)%nat) \/
  (Forall (fun p => pf_name p <> name) l /\ find_from i l name = Throw InvalidArgument).
Proof.
  induction l as [|p l IH]; intros i name.
  - right. split; [constructor|reflexivity].
  - cbn [find_from]. destruct (String.eqb_spec (pf_name p) name) as [E|E].
    + left. exists 0%nat, p. split; [reflexivity|]. split; [exact E|]. split; [intros; lia|]. f_equal. lia.
    + destruct (IH (S i) name) as [(k & p' & H1 & H2 & H3 & H4)|[H1 H2]].
      * left. exists (S k), p'. split; [exact H1|]. split; [exact H2|]. split; [|rewrite H4; f_equal; lia].
        intros [|k'] p'' Hk Hp; [injection Hp as <-; exact E|]. eapply H3; [|exact Hp]. lia.
      * right. split; [constructor; auto|exact H2].
Qed.

Lemma find_ok : forall (b : body V) name k, find_scalar_field V b name = Ok k <->
  (exists p, nth_error (bo_fields V b) k = Some p /\ pf_name p = name) /\
  (forall k' p', (k' < k)%nat -> nth_error (bo_fields V b) k' = Some p' -> pf_name p' <> name).
Proof.
  intros b name k. unfold find_scalar_field. destruct (find_from_spec (bo_fields V b) 0 name) as [(j & p & H1 & H2 & H3 & H4)|[H1 H2]].
  - rewrite H4. cbn [plus]. split.
    + intros E. injection E as <-. split; [exists p; auto|exact H3].
    + intros [(p' & Hp & Hn) Hf]. f_equal. destruct (Nat.lt_trichotomy j k) as [Hlt|[->|Hlt]]; auto.
      * exfalso. exact (Hf j p Hlt H1 H2).
      * exfalso. exact (H3 k p' Hlt Hp Hn).
  - rewrite H2. split; [discriminate|]. intros [(p & Hp & Hn) _]. rewrite Forall_forall in H1.
    exfalso. exact (H1 p (nth_error_In _ _ Hp) Hn).
Qed.

Lemma find_throws : forall (b : body V) name, find_scalar_field V b name = Throw InvalidArgument <->
  forall p, In p (bo_fields V b) -> pf_name p <> name.
Proof.
  intros b name. unfold find_scalar_field. destruct (find_from_spec (bo_fields V b) 0 name) as [(j & p & H1 & H2 & H3 & H4)|[H1 H2]].
  - rewrite H4. split; [discriminate|]. intros H. exfalso. exact (H p (nth_error_In _ _ H1) H2).
  - rewrite H2. rewrite Forall_forall in H1. split; auto.
Qed.
End Find.
