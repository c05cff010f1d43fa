(** Reading a second file into a body: C48. *)
From Flocq Require Import Core.
From Coquelicot Require Import Coquelicot.
From Coq Require Import ZArith List Bool Ascii Lia ZifyBool Reals Lra String.
From Verif Require Import Model.Outcome Model.Num Model.NumInst Model.PNDArray Model.Bin Model.PSimple Model.Interpolator
  Model.Quad Model.Hexahedron Model.Mesh Model.PField Model.Stream Model.Vtk.
From Verif Require Import Spec.Tensor Spec.NDHistory Spec.Grid Spec.Funcs Spec.Shape Spec.Fields Spec.Vtk.
From Verif Require Import Proofs.OutcomeP Proofs.PNDArrayP Proofs.BinP Proofs.BinRP Proofs.MeshP Proofs.ShapeP Proofs.FieldP
  Proofs.MeshReadP Proofs.AxisP Proofs.MeshRP Proofs.RectP Proofs.VtkP Proofs.VtkSpecP.
Import ListNotations.
Local Open Scope Z_scope.

(** ** Any file into any body *)

Section Any.
Context {O : NumOps} {K : kind O}.

Lemma onto_contents : forall (m0 : mesh O K) pts cells m, mesh_onto m0 pts cells m ->
  me_node m = me_node m0 ++ pts /\
  exists its, me_interp m = me_interp m0 ++ its /\ all_interpolators (me_node m0 ++ pts) cells its.
Proof.
  intros m0 pts cells m (m1 & H1 & H2). apply mesh_points_node in H1.
  destruct H1 as [N1 I1]. unfold mesh_cells, mbind, mget in H2. destruct (cells_loop 0 cells m1) as [m2 []| | | |] eqn:E; try discriminate.
  destruct (cells_loop_interp _ _ _ _ E) as (N2 & parts & H3 & H4 & H5). destruct (bin_all_keeps _ _ _ H2) as [N3 I3].
  split; [congruence|]. exists (List.concat parts). split; [rewrite I3, H3, I1; reflexivity|].
  exists parts. split; [reflexivity|]. split; [exact H4|].
  intros k cell part Hc Hp. specialize (H5 k cell part Hc Hp). rewrite N1 in H5. exact H5.
Qed.

(** The box is that of the new points alone. *)
Lemma onto_box : forall (m0 m0' : mesh O K) pts cells cells' m m', mesh_onto m0 pts cells m -> mesh_onto m0' pts cells' m' ->
  me_min m = me_min m' /\ me_max m = me_max m'.
Proof.
  assert (G : forall cells i (m m' : mesh O K), cells_loop i cells m = RRet m' tt -> me_min m' = me_min m /\ me_max m' = me_max m).
  { induction cells as [|c cells IH]; intros i m m' H; [injection H as <-; auto|].
    cbn [cells_loop] in H. unfold mbind, mget, mlift, mput in H. destruct (cell_interp _ _ _); try discriminate.
    apply IH in H. exact H. }
  assert (G2 : forall its (m m' : mesh O K),
    mfor its (fun it => on_bin (bin_add_range it (kcoords K (it_min it)) (kcoords K (it_max it)))) m = RRet m' tt ->
    me_min m' = me_min m /\ me_max m' = me_max m).
  { induction its as [|it its IH]; intros m m' H; [injection H as <-; auto|].
    cbn [mfor] in H. unfold mbind in H. destruct (on_bin _ m) as [m1 u| | | |] eqn:E; try discriminate.
    apply on_bin_ret in E. destruct E as (b & E & ->). apply IH in H. exact H. }
  assert (G3 : forall pts cells (m0 m : mesh O K), mesh_onto m0 pts cells m -> exists ax,
     omap (fun j => axis_grid (column pts j)) (seq 0 (kdim K)) = Ok ax /\ me_min m = Some (map ax_lo ax) /\ me_max m = Some (map ax_hi ax)).
  { intros pts cells m0 m (m1 & H1 & H2). unfold mesh_points, mbind, mmod, mlift in H1.
    destruct (omap _ _) as [ax| | | |]; try discriminate. destruct (bin_make _ _ _) as [b| | | |]; try discriminate.
    injection H1 as <-. exists ax. split; [reflexivity|].
    unfold mesh_cells, mbind, mget in H2. destruct (cells_loop 0 cells _) as [m2 []| | | |] eqn:E; try discriminate.
    apply G in E. apply G2 in H2. cbn [me_min me_max] in E. destruct E as [E1 E2], H2 as [E3 E4]. split; congruence. }
  intros m0 m0' pts cells cells' m m' H H'. destruct (G3 _ _ _ _ H) as (ax & E & -> & ->). destruct (G3 _ _ _ _ H') as (ax' & E' & -> & ->).
  split; congruence.
Qed.

Lemma onto_size : forall (m0 : mesh O K) pts cells m, answering (K := K) -> mesh_read m0 -> mesh_onto m0 pts cells m ->
  mesh_read m /\ exists mx, mesh_max_bin_size m = Ok mx.
Proof.
  intros m0 pts cells m Ha Hr (m1 & H1 & H2).
  assert (Hm : mesh_read m) by (eapply MeshCells; [eapply MeshPoints; [exact Hr|exact H1]|exact H2]).
  split; [exact Hm|]. apply max_size_total. apply (mesh_read_inv m Ha Hm).
Qed.
End Any.

Lemma onto2_ok : forall (O : NumOps) num_text num_scanner pts cells fields t (bo : body (quad_vkind O)) (m : mesh O (quad_kind O)) fuel,
  number_reader num_text num_scanner -> vtk_text num_text coords2 pts cells fields t -> mesh_read (K := quad_kind O) (bo_mesh (quad_vkind O) bo) ->
  mesh_onto (K := quad_kind O) (bo_mesh (quad_vkind O) bo) pts cells m -> (List.length t < fuel)%nat ->
  exists ps, body_read_vtk (quad_vkind O) num_scanner fuel (Some t) bo = RRet (mkBody (quad_vkind O) m (bo_fields (quad_vkind O) bo ++ ps)) tt /\
    Forall2 (fun f p => pf_new (F := scalar_field O) (string_of_list_ascii (fst f)) m (snd f) (nofZ O 0) = Ok p) fields ps.
Proof.
  intros O num_text sc pts cells fields t [m0 fs0] m fuel Hn Ht Hr Hm Hf. cbn [bo_mesh bo_fields] in *.
  destruct (onto_size m0 pts cells m (quad_answering O) Hr Hm) as (_ & mx & Hmx).
  destruct (body_onto_ok (quad_vkind O) num_text sc coords2 Hn (coords2_point O) m0 fs0 pts cells fields t m mx fuel ltac:(cbn; lia) ltac:(cbn; lia) Ht Hm Hmx Hf)
    as (ps & Hps & E).
  exists ps. split; [exact E|exact Hps].
Qed.

Lemma onto3_ok : forall (O : NumOps) num_text num_scanner pts cells fields t (bo : body (hex_vkind O)) (m : mesh O (hex_kind O)) fuel,
  number_reader num_text num_scanner -> vtk_text num_text coords3 pts cells fields t -> mesh_read (K := hex_kind O) (bo_mesh (hex_vkind O) bo) ->
  mesh_onto (K := hex_kind O) (bo_mesh (hex_vkind O) bo) pts cells m -> (List.length t < fuel)%nat ->
  exists ps, body_read_vtk (hex_vkind O) num_scanner fuel (Some t) bo = RRet (mkBody (hex_vkind O) m (bo_fields (hex_vkind O) bo ++ ps)) tt /\
    Forall2 (fun f p => pf_new (F := scalar_field O) (string_of_list_ascii (fst f)) m (snd f) (nofZ O 0) = Ok p) fields ps.
Proof.
  intros O num_text sc pts cells fields t [m0 fs0] m fuel Hn Ht Hr Hm Hf. cbn [bo_mesh bo_fields] in *.
  destruct (onto_size m0 pts cells m (hex_answering O) Hr Hm) as (_ & mx & Hmx).
  destruct (body_onto_ok (hex_vkind O) num_text sc coords3 Hn (coords3_point O) m0 fs0 pts cells fields t m mx fuel ltac:(cbn; lia) ltac:(cbn; lia) Ht Hm Hmx Hf)
    as (ps & Hps & E).
  exists ps. split; [exact E|exact Hps].
Qed.

(** ** Scratch vectors that are too short *)

Section Short.
Context {O : NumOps} {K : kind O} {F : FieldOps O}.
Local Notation ip := (interp O (kpoint K)).

Definition room (p : pfield F) : nat * nat := (List.length (sc_bf (pf_sc p)), List.length (sc_ni (pf_sc p))).

Lemma fill_room : forall f elem (its : list ip) i sc sc', fill f elem i its sc = Ok sc' ->
  List.length (sc_bf sc') = List.length (sc_bf sc) /\ List.length (sc_ni sc') = List.length (sc_ni sc).
Proof.
  intros f elem its. induction its as [|it its IH]; intros i sc sc' H; [injection H as <-; auto|].
  cbn [fill] in H. apply obind_ok in H. destruct H as (b & _ & H). apply obind_ok in H. destruct H as (bf & H1 & H).
  apply obind_ok in H. destruct H as (ni & H2 & H). apply IH in H. cbn [sc_bf sc_ni] in H.
  apply vset_inv in H1. apply vset_inv in H2. destruct H1 as [_ ->], H2 as [_ ->]. rewrite !length_lset in H. exact H.
Qed.

Lemma basis_room : forall f c (m m' : mesh O K) sc sc' s, (mesh_basis f c (m, sc) = RRet (m', sc') s \/ exists e, mesh_basis f c (m, sc) = RThrow (m', sc') e) ->
  List.length (sc_bf sc') = List.length (sc_bf sc) /\ List.length (sc_ni sc') = List.length (sc_ni sc).
Proof.
  intros f c m m' sc sc' s H. unfold mesh_basis in H. cbn [fst snd] in H.
  destruct (on_bin _ m) as [m1 its|m1 e| |r|]; try (destruct H as [H|(e' & H)]; discriminate).
  - destruct (cint _) as [n|e| |r|]; try (destruct H as [H|(e' & H)]; discriminate).
    + destruct (find _ its) as [it0|].
      * destruct (fill f (it_elem it0) 0 its sc) as [sc1|e| |r|] eqn:E; destruct H as [H|(e' & H)]; try discriminate.
        -- injection H as _ <- _. eapply fill_room; eauto.
        -- injection H as _ <- _. auto.
      * destruct H as [H|(e' & H)]; [|discriminate]. injection H as _ <- _. auto.
    + destruct H as [H|(e' & H)]; [discriminate|]. injection H as _ <- _. auto.
  - destruct H as [H|(e' & H)]; [discriminate|]. injection H as _ <- _. auto.
Qed.

Lemma put_sc : forall q a (p p' : pfield F), put q a p = Ok p' -> pf_sc p' = pf_sc p.
Proof.
  intros [|i|i j] a p p' H; cbn [put] in H.
  - injection H as <-. reflexivity.
  - unfold pf_set_grad in H. apply obind_ok in H. destruct H as (g & _ & H). injection H as <-. reflexivity.
  - unfold pf_set_hess in H. apply obind_ok in H. destruct H as (g & _ & H). apply obind_ok in H. destruct H as (g' & _ & H).
    apply obind_ok in H. destruct H as (g2 & _ & H). injection H as <-. reflexivity.
Qed.

Lemma eval_room : forall q c (m m' : mesh O K) (p p' : pfield F), ((exists a, field_eval q c (m, p) = RRet (m', p') a) \/ exists e, field_eval q c (m, p) = RThrow (m', p') e) ->
  room p' = room p.
Proof.
  intros q c m m' p p' H. rewrite field_eval_with in H. unfold pf_eval_with in H. cbn [fst snd] in H.
  destruct (mesh_basis (ask q c) c (m, pf_sc p)) as [[m1 sc1] s|[m1 sc1] e| |r|] eqn:E;
    try (destruct H as [(a & H)|(e' & H)]; discriminate).
  - assert (R := basis_room _ _ _ _ _ _ s (or_introl E)).
    destruct (pf_sum s (pf_set_sc sc1 p)) as [x|e| |r|]; cbn [obind] in H; try (destruct H as [(a & H)|(e' & H)]; discriminate).
    + destruct (put q x (pf_set_sc sc1 p)) as [p1|e| |r|] eqn:Ep; cbn [obind] in H; try (destruct H as [(a & H)|(e' & H)]; discriminate).
      * destruct H as [(a & H)|(e' & H)]; [|discriminate]. injection H as _ <- _. unfold room. rewrite (put_sc _ _ _ _ Ep). cbn [pf_set_sc pf_sc].
        f_equal; apply R.
      * destruct H as [(a & H)|(e' & H)]; [discriminate|]. injection H as _ <- _. unfold room. cbn [pf_set_sc pf_sc]. f_equal; apply R.
    + destruct H as [(a & H)|(e' & H)]; [discriminate|]. injection H as _ <- _. unfold room. cbn [pf_set_sc pf_sc]. f_equal; apply R.
  - assert (R := basis_room _ _ _ _ _ _ 0 (or_intror (ex_intro _ e E))).
    destruct H as [(a & H)|(e' & H)]; [discriminate|]. injection H as _ <- _. unfold room. cbn [pf_set_sc pf_sc]. f_equal; apply R.
Qed.

Lemma history_room : forall (s s' : mesh O K * pfield F) h, field_history s h s' -> room (snd s') = room (snd s).
Proof.
  intros s s' h H. induction H as [|h s1 q c a s2 H IH Hq He|h s1 q c e s2 H IH Hq He]; [reflexivity| |]; rewrite <- IH; destruct s1, s2;
    eapply eval_room; [left|right]; eauto.
Qed.

Lemma fill_short : forall q c elem (its : list ip), Forall (fun it => exists w, ask q c it = Ok w) its ->
  forall i sc, 0 <= i <= Z.of_nat (List.length (sc_bf sc)) -> List.length (sc_ni sc) = List.length (sc_bf sc) ->
  Z.of_nat (List.length (sc_bf sc)) < i + Z.of_nat (List.length its) -> fill (ask q c) elem i its sc = UB UBOutOfBounds.
Proof.
  intros q c elem its H. induction H as [|it its (w & Hw) H IH]; intros i sc Hi Hl Hs; cbn [List.length] in Hs; [lia|].
  cbn [fill]. assert (E : exists b, (if it_elem it =? elem then ask q c it else Ok (nofZ O 0)) = Ok b) by (destruct (it_elem it =? elem); eauto).
  destruct E as (b & ->). cbn [obind].
  destruct (Z.eq_dec i (Z.of_nat (List.length (sc_bf sc)))) as [->|Hne].
  - unfold vset. rewrite Z.leb_refl || idtac. destruct (_ && _) eqn:E; [lia|]. reflexivity.
  - rewrite vset_ok by lia. cbn [obind]. rewrite vset_ok by lia. cbn [obind]. apply IH; cbn [sc_bf sc_ni]; rewrite ?length_lset; lia.
Qed.

Lemma eval_short : forall q c (m : mesh O K) (p : pfield F) its it0, view (me_bin m) (kcoords K c) = Ok its ->
  Z.of_nat (List.length its) <= INT_MAX -> find (fun it => it_range it c) its = Some it0 ->
  Forall (fun it => exists w, ask q c it = Ok w) its ->
  fst (room p) = snd (room p) -> (fst (room p) < List.length its)%nat -> field_eval q c (m, p) = RUB UBOutOfBounds.
Proof.
  intros q c m p its it0 Hv Hi Hf Ha Hr Hs. rewrite field_eval_with. unfold pf_eval_with. cbn [fst snd].
  unfold mesh_basis. cbn [fst snd]. pose proof (on_bin_cases (kcoords K c) m) as H. rewrite Hv in H. destruct H as (m' & -> & _).
  rewrite cint_ok by (unfold INT_MIN; lia). rewrite Hf. unfold room in *. cbn [fst snd] in *.
  rewrite (fill_short q c (it_elem it0) its Ha 0 (pf_sc p)) by lia. reflexivity.
Qed.

Lemma new_room : forall name (m : mesh O K) data zero (p : pfield F) mx, mesh_max_bin_size m = Ok mx -> pf_new name m data zero = Ok p ->
  room p = (Z.to_nat mx, Z.to_nat mx).
Proof.
  intros name m data zero p mx Hmx H. unfold pf_new in H. rewrite Hmx in H. cbn [obind] in H. injection H as <-.
  unfold room. cbn [pf_sc sc_bf sc_ni]. rewrite !repeat_length. reflexivity.
Qed.
End Short.

(** ** The same file twice, over the reals *)

Lemma rsum_app : forall (A : Type) (f : A -> R) l l', (rsum f (l ++ l') = rsum f l + rsum f l')%R.
Proof. intros A f l l'. induction l as [|x l IH]; simpl; [ring|rewrite IH; ring]. Qed.

Lemma find_app_some : forall (A : Type) (f : A -> bool) l l' x, find f l = Some x -> find f (l ++ l') = Some x.
Proof. intros A f l l' x. induction l as [|y l IH]; simpl; [discriminate|]. destruct (f y); auto. Qed.

Section Twice.
Context {K : kind ROps}.
Local Notation P := (kpoint K).
Local Notation ip := (interp ROps P).
Hypothesis Hdim : (0 < kdim K)%nat.
Hypothesis Hcoords : forall p : P, List.length (kcoords K p) = kdim K.
Hypothesis Ha : answering (K := K).
Variable corner : P -> P -> Z -> P.
Variable pos : P -> Prop.

Lemma twice_ok : forall pts cells elems ax m m2 (data : list R), zprod (grid_shape pts) <= int_max ->
  meshed corner pos pts cells elems ax m -> mesh_read m -> mesh_read m2 ->
  meshed2 pts cells ax (me_interp m) m2 -> 2 * Z.of_nat (List.length (me_interp m)) <= int_max ->
  (List.length pts <= List.length data)%nat -> exists mx, mesh_max_bin_size m2 = Ok mx /\ mx <= int_max /\ mesh_ok m2 (List.length data).
Proof.
  intros pts cells elems ax m m2 data Hz Hm Hr Hr2 H2 Hn Hd.
  pose proof (axes_grid Hdim Hcoords _ _ (md_axes _ _ _ _ _ _ _ Hm) Hz) as Hgrid.
  destruct (reachable_inv teq _ _ _ Hgrid _ (md2_bin _ _ _ _ _ H2)) as (mx & Hinv & Hg & Hs).
  destruct (max_size_spec _ _ _ _ _ Hinv) as (sz & Hsz & _ & Hatt). exists sz. split; [exact Hsz|].
  assert (Hle : sz <= int_max).
  { destruct Hatt as (t & l & Ht & Hl & <-).
    destruct (cell_point _ _ _ Hgrid t Ht) as (c & Hc & Hct).
    destruct (inside_view _ _ _ Hgrid mx _ c Hinv Hg Hc) as (t' & Hct' & _ & _ & _ & Hv).
    rewrite (in_cell_fun _ _ _ Hgrid _ _ _ Hct' Hct) in Hv. rewrite (md2_view _ _ _ _ _ H2 c Hc), Hl in Hv.
    injection Hv as <-. rewrite app_length.
    match goal with |- context [filter ?f (me_interp m)] => pose proof (MeshRP.filter_length_le Hdim ip f (me_interp m)) end. lia. }
  split; [exact Hle|].
  destruct (mesh_read_inv m2 Ha Hr2) as [G1 G2 G3 G4]. destruct (mesh_read_inv m Ha Hr) as [_ _ N3 _].
  destruct (max_size_good (me_bin m2) sz G1 Hsz) as [_ Hss].
  constructor; auto.
  - intros t l Hl. specialize (Hss t l Hl). unfold INT_MAX, int_max in *. lia.
  - eapply holds_impl; [|exact G2]. intros it Hit. rewrite (md2_interp _ _ _ _ _ H2) in Hit.
    assert (Hin : In it (me_interp m)) by (apply in_app_or in Hit; tauto).
    rewrite Forall_forall in N3. specialize (N3 it Hin). rewrite (md_node _ _ _ _ _ _ _ Hm) in N3. cbn beta in *. lia.
  - eapply holds_impl; [|exact G2]. intros it Hit. rewrite Forall_forall in G4.
    destruct (G4 it Hit) as (nd & el & p & h & k & ->). apply Ha.
Qed.

(** At a point that some element claims, the new field is worth twice the old one. *)
Lemma twice_value : forall pts cells elems ax m m2 (data : list R) name name2 p p2 q c l it0, zprod (grid_shape pts) <= int_max ->
  meshed corner pos pts cells elems ax m -> mesh_read m -> mesh_read m2 ->
  meshed2 pts cells ax (me_interp m) m2 -> 2 * Z.of_nat (List.length (me_interp m)) <= int_max ->
  (List.length pts <= List.length data)%nat ->
  pf_new (F := scalar_field ROps) name m data 0%R = Ok p -> pf_new (F := scalar_field ROps) name2 m2 data 0%R = Ok p2 ->
  mesh_ok m (List.length data) ->
  inside (map ax_min ax) (map ax_incr ax) (map ax_N ax) (kcoords K c) ->
  view (me_bin m) (kcoords K c) = Ok l -> find (fun it => it_range it c) l = Some it0 -> on_axes (kdim K) q ->
  forall h m2' p2', field_history (m2, p2) h (m2', p2') ->
  exists s s' a, field_eval q c (m, p) = RRet s a /\ field_eval q c (m2', p2') = RRet s' (2 * a)%R.
Proof.
  intros pts cells elems ax m m2 data name name2 p p2 q c l it0 Hz Hm Hr Hr2 H2 Hn Hd Hp Hp2 Hok Hc Hl Hf Hq h m2' p2' Hh.
  destruct (twice_ok pts cells elems ax m m2 data Hz Hm Hr Hr2 H2 Hn Hd) as (mx & _ & _ & Hok2).
  pose proof (pf_new_ok _ _ _ _ _ (mk_bin _ _ Hok) Hp) as Hfk.
  pose proof (pf_new_ok _ _ _ _ _ (mk_bin _ _ Hok2) Hp2) as Hfk2.
  pose proof (history_ok (F := scalar_field ROps) m2 data 0%R _ _ _ Hok2 Hfk2 Hh) as Hfk2'.
  pose proof (field_eval_spec (F := scalar_field ROps) m data 0%R m p q c Hok Hfk Hq) as S.
  pose proof (field_eval_spec (F := scalar_field ROps) m2 data 0%R m2' p2' q c Hok2 Hfk2' Hq) as S2.
  rewrite Hl in S. rewrite (md2_view _ _ _ _ _ H2 _ Hc) in S2.
  rewrite (md_view _ _ _ _ _ _ _ Hm _ Hc) in Hl. injection Hl as <-.
  destruct S as (ma & pa & a & S & _ & R & _). destruct S2 as (mb & pb & b & S2 & _ & R2 & _).
  unfold result_is in R, R2. rewrite (find_app_some _ _ _ _ _ Hf) in R2. rewrite Hf in R.
  destruct R as (ws & vs & R1 & R3 & ->). destruct R2 as (ws2 & vs2 & R4 & R5 & ->).
  assert (Ed : pf_field p = data) by exact (fk_field _ _ _ _ Hfk).
  assert (Ez : pf_zero p = 0%R) by exact (fk_zero _ _ _ _ Hfk).
  assert (Ed2 : pf_field p2' = data) by exact (fk_field _ _ _ _ Hfk2').
  assert (Ez2 : pf_zero p2' = 0%R) by exact (fk_zero _ _ _ _ Hfk2').
  rewrite Ed in R3. rewrite Ez in S. rewrite (wsum_contrib _ _ _ _ _ _ _ _ R1 R3) in S.
  rewrite Ed2 in R5. rewrite Ez2 in S2. rewrite (wsum_contrib _ _ _ _ _ _ _ _ R4 R5) in S2.
  exists (ma, pa), (mb, pb). eexists. split; [exact S|]. rewrite S2. f_equal. rewrite filter_app, rsum_app.
  match goal with |- _ = (2 * (0 + ?x))%R =>
    exact (eq_sym (eq_trans (f_equal (Rmult 2) (Rplus_0_l x)) (eq_trans (double x) (eq_sym (Rplus_0_l (x + x)))))) end.
Qed.

End Twice.

Lemma built_length : forall (K : kind ROps) corner i cells elems its, built (K := K) corner i cells elems its ->
  List.length its = (kcorners K * List.length cells)%nat.
Proof.
  intros K corner i cells elems its H. induction H as [|i cell e cells elems its rest B H IH]; [cbn; lia|].
  rewrite app_length, IH. apply MeshRP.Forall2_len in B. unfold ks in B. rewrite map_length, seq_length in B. cbn [List.length]. lia.
Qed.

(** A point of the interval whose bin is the given one. *)
Lemma floor_between : forall a h lo hi k, (0 < h)%R -> (lo <= hi)%R -> Zfloor ((lo - a) / h) <= k <= Zfloor ((hi - a) / h) ->
  exists x, (lo <= x <= hi)%R /\ Zfloor ((x - a) / h) = k.
Proof.
  intros a h lo hi k Hh Hl [H1 H2]. destruct (Z.eq_dec (Zfloor ((lo - a) / h)) k) as [E|E].
  - exists lo. split; [lra|exact E].
  - exists (a + IZR k * h)%R. split.
    + split.
      * assert (G : (IZR (Zfloor ((lo - a) / h) + 1) <= IZR k)%R) by (apply IZR_le; lia). rewrite plus_IZR in G.
        pose proof (Zfloor_ub ((lo - a) / h)) as U.
        assert (U' : ((lo - a) / h <= IZR k)%R) by lra. apply (Rmult_le_compat_r h) in U'; [|lra].
        unfold Rdiv in U'. rewrite Rmult_assoc, Rinv_l, Rmult_1_r in U' by lra. lra.
      * pose proof (Zfloor_lb ((hi - a) / h)) as U. apply IZR_le in H2.
        assert (U' : (IZR k <= (hi - a) / h)%R) by lra. apply (Rmult_le_compat_r h) in U'; [|lra].
        unfold Rdiv in U'. rewrite Rmult_assoc, Rinv_l, Rmult_1_r in U' by lra. lra.
    + replace ((a + IZR k * h - a) / h)%R with (IZR k) by (field; lra). apply Zfloor_IZR.
Qed.

Section RectTwice.
Let K := quad_kind ROps.

Lemma rect_rereads : forall pts cells m m0, rect_mesh pts cells -> mesh_of (K := K) pts cells m ->
  me_node m0 = me_node m -> me_interp m0 = me_interp m ->
  exists elems ax m', mesh_onto m0 pts cells m' /\ rect_meshed pts cells elems ax m /\ meshed2 (K := K) pts cells ax (me_interp m) m' /\
    (forall m'', mesh_onto m0 pts cells m'' -> m'' = m').
Proof.
  intros pts cells m m0 Hr Hof Hn0 Hi0. destruct (rect_reads _ _ Hr) as (m1 & elems & ax & _ & Hm & H3). rewrite <- (H3 _ Hof) in Hm.
  destruct (rect_mesh_facts _ _ Hr) as (F1 & F2 & F3 & _).
  destruct (mesh_rereads (K := K) q_dim q_coords corner2 hi2 positive2 q_far q_diff q_box q_ends q_pos pts cells elems ax m m0 F1 F2 F3 Hof Hm Hn0 Hi0)
    as (m' & Hon & H2).
  exists elems, ax, m'. split; [exact Hon|]. split; [exact Hm|]. split; [exact H2|].
  intros m'' (x & E1 & E2). destruct Hon as (y & G1 & G2). congruence.
Qed.

Lemma rect_interp_length : forall pts cells elems ax m, rect_meshed pts cells elems ax m -> List.length (me_interp m) = (4 * List.length cells)%nat.
Proof. intros pts cells elems ax m Hm. exact (built_length K _ _ _ _ _ (md_built _ _ _ _ _ _ _ Hm)). Qed.

Lemma point_claimed : forall pts cells elems ax m r, rect_meshed pts cells elems ax m -> in_mesh2 pts cells r ->
  inside (map ax_min ax) (map ax_incr ax) (map ax_N ax) (kcoords K r) /\
  exists l it0, view (me_bin m) (kcoords K r) = Ok l /\ find (fun it => it_range it r) l = Some it0.
Proof.
  intros pts cells elems ax m r Hm (cell & lo & h & Hin & Hcell & Hrect).
  assert (Hg : gcell (K := K) corner2 positive2 pts cell (lo, h)) by (apply gcell_rect; exact Hcell).
  assert (Hpos : positive2 h) by (destruct Hcell; auto).
  pose proof (proj1 (in_rect_below lo h r Hpos) Hrect) as [Hb1 Hb2].
  destruct (proj2 (quad_range_iff (fun _ => 0) 0 lo h r Hpos) Hrect) as (k & Hk & Hkr).
  destruct (element_accepts (K := K) q_coords corner2 hi2 positive2 q_far q_ends pts cells elems ax m cell (lo, h) r k Hm Hg Hb1 Hb2 Hk Hkr)
    as (Hacc & _ & Hins).
  split; [exact Hins|]. pose proof (md_view _ _ _ _ _ _ _ Hm _ Hins) as Hv.
  eexists. destruct (find (fun it => it_range it r) (filter (cov (K := K) (map ax_min ax) (map ax_incr ax) (kcoords K r)) (me_interp m))) as [it0|] eqn:Ef.
  { exists it0. split; [exact Hv|exact Ef]. }
  exfalso. apply In_nth_error in Hin. destruct Hin as (j & Ec).
  destruct (built_nth _ _ _ _ _ _ _ (md_built _ _ _ _ _ _ _ Hm) Ec) as ([lo' h'] & Ee).
  pose proof (nth_gcell _ _ _ _ _ _ _ _ (md_cells _ _ _ _ _ _ _ Hm) Ec Ee) as Hg'. apply gcell_rect in Hg'.
  assert (Heq : lo' = lo /\ h' = h) by exact (cell_rect_fun _ _ _ _ _ _ Hg' Hcell). destruct Heq as [-> ->].
  pose proof (built_filter (K := K) q_dim corner2 hi2 q_box _ _ _ _ _ _ _ (md_built _ _ _ _ _ _ _ Hm) Ec Ee) as B. cbn [Z.add] in B.
  destruct (Forall2_in_l _ _ _ _ _ _ B Hk) as (it & Hit & _ & n & Hn & Eit).
  destruct (block_item (K := K) corner2 hi2 q_box _ _ _ _ _ B Hit) as (_ & Emin & Emax & _).
  assert (Hl : In it (filter (cov (K := K) (map ax_min ax) (map ax_incr ax) (kcoords K r)) (me_interp m))).
  { apply filter_In. apply filter_In in Hit. split; [apply Hit|]. unfold cov. rewrite Emin, Emax. apply Hacc. }
  pose proof (find_none _ _ Ef it Hl) as Hno. cbn beta in Hno. rewrite Eit in Hno.
  rewrite (proj2 (q_indep n _ _ _ k)) in Hno. cbn [fst snd] in Hno.
  discriminate (eq_trans (eq_sym Hno) Hkr).
Qed.

Lemma mesh_of_fits : forall pts cells m (data : list R), rect_mesh pts cells -> mesh_of (K := K) pts cells m ->
  (List.length pts <= List.length data)%nat -> mesh_ok m (List.length data).
Proof.
  intros pts cells m data Hr Hof Hd.
  destruct (rect_field_new pts cells m data "x" Hr Hof Hd) as (p0 & _ & Hon).
  exact (proj1 (field_on_ok (F := scalar_field ROps) _ _ _ _ (quad_answering ROps) Hon)).
Qed.

(** The new field is twice the interpolation of the data. *)
Lemma rect_twice_value : forall pts cells m m2 data name p2 r, rect_mesh pts cells -> 8 * Z.of_nat (List.length cells) <= int_max ->
  mesh_of (K := K) pts cells m -> mesh_onto (K := K) m pts cells m2 -> (List.length pts <= List.length data)%nat ->
  pf_new (F := scalar_field ROps) name m2 data 0%R = Ok p2 -> in_mesh2 pts cells r ->
  exists cell lo h v, In cell cells /\ cell_rect pts cell lo h /\ in_rect lo h r /\ cell_data data cell corners2 v /\
    forall hist m' p', field_history (m2, p2) hist (m', p') -> forall q, on_axes 2 q ->
      exists s a, field_eval (K := K) q r (m', p') = RRet s (2 * a)%R /\ quantity2 (bilinear lo h v) q r a.
Proof.
  intros pts cells m m2 data name p2 r Hr Hn Hof Hon Hd Hp2 Hin.
  destruct (rect_rereads pts cells m m Hr Hof eq_refl eq_refl) as (elems & ax & m2' & _ & Hm & H2 & Hu).
  rewrite <- (Hu _ Hon) in H2. clear Hu m2'.
  destruct (rect_field_new pts cells m data name Hr Hof Hd) as (p & Hp & Hfo).
  destruct (rect_field pts cells m data name p r Hr Hof Hd Hp Hin) as (cell & lo & h & v & A1 & A2 & A3 & A4 & A5).
  exists cell, lo, h, v. split; [exact A1|]. split; [exact A2|]. split; [exact A3|]. split; [exact A4|].
  intros hist m' p' Hh q Hq.
  destruct (A5 _ _ _ (FieldNone _) q Hq) as (s & a & Es & Ha).
  destruct (point_claimed pts cells elems ax m r Hm Hin) as (Hins & l & it0 & Hv & Hf).
  destruct (rect_mesh_facts _ _ Hr) as (_ & _ & Hz & _).
  assert (Hr1 : mesh_read m) by (eapply mesh_of_read; eauto).
  destruct (onto_size m pts cells m2 (quad_answering ROps) Hr1 Hon) as (Hr2 & _).
  assert (Hl2 : 2 * Z.of_nat (List.length (me_interp m)) <= int_max) by (pose proof (rect_interp_length _ _ _ _ _ Hm) as Hil; unfold K in *; lia).
  destruct (twice_value (K := K) q_dim q_coords (quad_answering ROps) corner2 positive2 pts cells elems ax m m2 data name name p p2 q r l it0
    Hz Hm Hr1 Hr2 H2 Hl2 Hd Hp Hp2 (mesh_of_fits _ _ _ _ Hr Hof Hd) Hins Hv Hf Hq hist m' p' Hh) as (s1 & s2 & b & E1 & E2).
  assert (Hba : b = a) by (pose proof (eq_trans (eq_sym E1) Es) as Q; injection Q as _ Q; exact Q). subst b. exists s2, a. split; [exact E2|exact Ha].
Qed.

(** A field made before overruns its scratch vectors somewhere in the mesh. *)
Lemma rect_old_field : forall pts cells m data name p0, rect_mesh pts cells -> 8 * Z.of_nat (List.length cells) <= int_max ->
  mesh_of (K := K) pts cells m -> (List.length pts <= List.length data)%nat ->
  pf_new (F := scalar_field ROps) name m data 0%R = Ok p0 ->
  exists r, in_mesh2 pts cells r /\ forall hist m' p' m2, field_history (m, p0) hist (m', p') -> mesh_onto (K := K) m' pts cells m2 ->
    forall q, on_axes 2 q -> field_eval (K := K) q r (m2, p') = RUB UBOutOfBounds.
Proof.
  intros pts cells m data name p0 Hr Hn Hof Hd Hp0.
  destruct (rect_reads _ _ Hr) as (m1 & elems & ax & _ & Hm & H3). rewrite <- (H3 _ Hof) in Hm. clear H3 m1.
  destruct (rect_mesh_facts _ _ Hr) as (_ & _ & Hz & _).
  pose proof (md_axes _ _ _ _ _ _ _ Hm) as Hax.
  pose proof (axes_grid (K := K) q_dim q_coords _ _ Hax Hz) as Hgrid.
  destruct (reachable_inv _ _ _ _ Hgrid _ (md_bin _ _ _ _ _ _ _ Hm)) as (mx & Hinv & Hg & Hs).
  destruct (max_size_spec _ _ _ _ _ Hinv) as (sz & Hsz & Hbig & (t & l & Ht & Hl & Hlsz)).
  destruct (cell_point _ _ _ Hgrid t Ht) as (c & Hc & Hct).
  assert (Hvl : filter (cov (K := K) (map ax_min ax) (map ax_incr ax) c) (me_interp m) = l).
  { destruct (inside_view _ _ _ Hgrid mx _ c Hinv Hg Hc) as (t' & Hct' & _ & _ & _ & Hv).
    rewrite (in_cell_fun _ _ _ Hgrid _ _ _ Hct' Hct) in Hv. pose proof (eq_trans (eq_sym (md_view _ _ _ _ _ _ _ Hm c Hc)) (eq_trans Hv Hl)) as Q. injection Q as Q. exact Q. }
  (* some bin is not empty *)
  assert (Hpos : 0 < sz).
  { destruct Hr as (Hne & Hcells & _). destruct cells as [|cell cells]; [congruence|].
    inversion Hcells as [|? ? (lo & h & Hcell) _]; subst.
    assert (Hin : in_mesh2 pts (cell :: cells) lo).
    { exists cell, lo, h. split; [left; reflexivity|]. split; [exact Hcell|]. apply in_rect_below; [apply Hcell|].
      destruct Hcell as [[P1 P2] _]. destruct lo as [a b], h as [d e]. unfold below, hi2; simpl in *. split; (constructor; [lra|constructor; [lra|constructor]]). }
    destruct (point_claimed _ _ _ _ _ _ Hm Hin) as (Hins & l' & it0 & Hv & Hf).
    destruct (inside_view _ _ _ Hgrid mx _ _ Hinv Hg Hins) as (t' & _ & Hti & _ & _ & Hv'). rewrite Hv in Hv'.
    specialize (Hbig t' l' Hti (eq_sym Hv')). destruct l' as [|y l']; [discriminate|]. cbn [List.length] in Hbig. lia. }
  destruct l as [|it l]; [cbn [List.length] in Hlsz; lia|].
  assert (Hit : In it (filter (cov (K := K) (map ax_min ax) (map ax_incr ax) c) (me_interp m))) by (rewrite Hvl; left; reflexivity).
  apply filter_In in Hit. destruct Hit as [Hit Hcov].
  destruct (built_cell (K := K) q_dim corner2 _ _ _ _ _ (md_built _ _ _ _ _ _ _ Hm) Hit) as (j & cell & [lo h] & blk & Ec & Ee & B & Hin).
  destruct (block_item (K := K) corner2 hi2 q_box _ _ _ _ _ B Hin) as (_ & Emin & Emax & _). cbn [fst snd] in *.
  pose proof (nth_gcell _ _ _ _ _ _ _ _ (md_cells _ _ _ _ _ _ _ Hm) Ec Ee) as Hgc. apply gcell_rect in Hgc.
  assert (Hh : positive2 h) by apply Hgc.
  unfold cov in Hcov. rewrite Emin, Emax in Hcov. clear Emin Emax. apply boxb_iff in Hcov.
  pose proof (axes_length (K := K) _ _ Hax) as Hal. cbn in Hal.
  pose proof (good_incr ax (proj1 Hax)) as Hinc.
  destruct ax as [|a0 [|a1 [|? ?]]]; try discriminate Hal.
  cbn [map] in Hc, Hinc. 
  inversion Hc as [|? ? ? c0 ? ? ? cr Hc0 Hcr]; subst. inversion Hcr as [|? ? ? c1 ? ? ? cr' Hc1 Hcr']; subst. inversion Hcr'; subst.
  inversion Hinc as [|? ? I0 Hinc']; subst. inversion Hinc' as [|? ? I1 _]; subst.
  cbn in Hcov. inversion Hcov as [|? ? ? ? ? ? C0 Hcov']; subst. inversion Hcov' as [|? ? ? ? ? ? C1 _]; subst.
  assert (Hr0 : exists r : point2, in_rect lo h r /\ cellof (map ax_min [a0; a1]) (map ax_incr [a0; a1]) (kcoords K r) =
                 cellof (map ax_min [a0; a1]) (map ax_incr [a0; a1]) [c0; c1]).
  { destruct Hh as [P0 P1].
    destruct (floor_between _ _ (fst lo) (fst lo + fst h)%R _ I0 ltac:(lra) C0) as (x & Hx & Ex).
    destruct (floor_between _ _ (snd lo) (snd lo + snd h)%R _ I1 ltac:(lra) C1) as (y & Hy & Ey).
    exists (x, y). split; [|cbn; congruence]. apply in_rect_below; [split; auto|].
    destruct lo as [a b], h as [d e]. unfold below, hi2; simpl in *. split; (constructor; [lra|constructor; [lra|constructor]]). }
  destruct Hr0 as (r & Hrect & Hcell). exists r.
  assert (Hmesh : in_mesh2 pts cells r) by (exists cell, lo, h; split; [eapply nth_error_In; eauto|auto]).
  split; [exact Hmesh|]. intros hist m' p' m2 Hhist Hon q Hq.
  pose proof (mesh_of_fits _ _ _ _ Hr Hof Hd) as Hok.
  pose proof (pf_new_ok (F := scalar_field ROps) _ _ _ _ _ (mk_bin _ _ Hok) Hp0) as Hfk0.
  pose proof (history_ok (F := scalar_field ROps) m data 0%R _ _ _ Hok Hfk0 Hhist) as Hfk.
  destruct (fk_mesh _ _ _ _ Hfk) as (_ & _ & Hn1 & Hi1 & _). cbn [fst] in Hn1, Hi1.
  destruct (rect_rereads pts cells m m' Hr Hof Hn1 Hi1) as (elems' & ax' & m2' & Hon' & Hm' & H2 & Hu).
  rewrite <- (Hu _ Hon) in H2. clear Hu m2' Hon'.
  pose proof (axes_fun (K := K) q_dim _ _ _ (md_axes _ _ _ _ _ _ _ Hm') Hax) as ->.
  destruct (point_claimed _ _ _ _ _ _ Hm Hmesh) as (Hins & l' & it0 & Hv & Hf).
  pose proof (md2_view _ _ _ _ _ H2 _ Hins) as Hv2.
  assert (Ecov : filter (cov (K := K) (map ax_min [a0; a1]) (map ax_incr [a0; a1]) (kcoords K r)) (me_interp m) = it :: l).
  { rewrite <- Hvl. apply filter_ext. intros x. unfold cov. rewrite Hcell. reflexivity. }
  assert (El : l' = it :: l).
  { pose proof (eq_trans (eq_sym Hv) (md_view _ _ _ _ _ _ _ Hm _ Hins)) as Q. injection Q as Q. exact (eq_trans Q Ecov). }
  subst l'. rewrite Ecov in Hv2.
  assert (Hroom : room p' = (List.length (it :: l), List.length (it :: l))).
  { pose proof (history_room _ _ _ Hhist) as Q. cbn [snd] in Q. pose proof (new_room _ _ _ _ _ _ Hsz Hp0) as Q2.
    rewrite Nat2Z.id in Q2. exact (eq_trans Q Q2). }
  assert (Hr1 : mesh_read m) by (eapply mesh_of_read; eauto).
  assert (Hlen : (List.length (it :: l) <= 4 * List.length cells)%nat).
  { pose proof (rect_interp_length _ _ _ _ _ Hm) as Hil. rewrite <- Ecov. unfold K in *.
    eapply Nat.le_trans; [apply (filter_length_le (K := K) q_dim)|]. unfold K. rewrite Hil. apply le_n. }
  eapply (eval_short (K := K) (F := scalar_field ROps) q r m2 p' ((it :: l) ++ (it :: l)) it0 Hv2).
  - rewrite app_length. unfold INT_MAX, int_max in *. lia.
  - apply find_app_some. exact Hf.
  - assert (HF : Forall (fun it1 => exists w, ask (K := K) q r it1 = Ok w) (it :: l)).
    { apply Forall_forall. intros it1 H1. rewrite <- Ecov in H1. apply filter_In in H1. destruct H1 as [H1 _].
      pose proof (mi_made _ (mesh_read_inv m (quad_answering ROps) Hr1)) as HM. rewrite Forall_forall in HM.
      destruct (HM it1 H1) as (nd & el & pp & hh & kk & ->). apply (quad_answering ROps). exact Hq. }
    apply Forall_app. auto.
  - rewrite Hroom. reflexivity.
  - rewrite Hroom, app_length. cbn [fst List.length]. lia.
Qed.

End RectTwice.
