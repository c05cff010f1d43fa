(** What is done with files of unsupported content. *)
From Coq Require Import ZArith List Bool Ascii String Lia ZifyBool.
From Verif Require Import Model.Outcome Model.Num Model.PNDArray Model.Bin Model.PSimple Model.Interpolator Model.Quad
  Model.Hexahedron Model.Mesh Model.PField Model.Stream Model.Vtk.
From Verif Require Import Spec.Tensor Spec.Shape Spec.Fields Spec.Vtk Spec.Malformed.
From Verif Require Import Proofs.OutcomeP Proofs.FieldP Proofs.StreamP Proofs.VtkP Proofs.VtkSpecP.
Import ListNotations.
Local Open Scope Z_scope.

(** The supported files are those with supported types and data. *)
Lemma supported_upto : forall (O : NumOps) (P : Type) num_text (coords_of : P -> list (num O) -> Prop) pts cells fields t,
  vtk_text num_text coords_of pts cells fields t <->
  exists types rest, upto_types num_text coords_of pts cells types rest t /\ Forall supported_type types /\ data_text num_text None fields rest.
Proof.
  intros O P nt co pts cells fields t. split.
  - intros H. destruct H as [pre ph xs pt mid ch ct mid' th types tt0 rest Hpre Hph Hxs Hpt Hmid Hs1 Hch Hct Hmid' Hs2 Hth Htypes Htt Hs3 Hdata
                  Hn1 Hn2 Hn3 Hn4].
    exists types, rest. split; [|split; [exact Htypes|exact Hdata]]. exists mid', th, tt0. repeat (split; [assumption|]).
    econstructor; eauto. destruct Hs2 as [?|Hs2]; [left; auto|right]. rewrite app_assoc. apply ends_app_ne; auto.
    pose proof (count_line_ne _ _ _ Hth). destruct (lines mid'); [auto|discriminate].
  - intros (types & rest & (mid' & th & tt0 & Hmid' & Hth & Htt & Hs3 & Hn3 & Hs2 & H) & Htypes & Hdata).
    inversion H as [pre ph xs pt mid ch ct Hpre Hph Hxs Hpt Hmid Hs1 Hch Hct Hs2' Hn1 Hn2 Hn4 E]. subst t.
    rewrite <- ?app_assoc. econstructor; eauto.
Qed.

Section Bad.
Context {O : NumOps} (V : vkind O) (num_text : text -> num O -> Prop) (num_scanner : scanner (num O)).
Context (coords_of : kpoint (vk_kind V) -> list (num O) -> Prop).
Hypothesis Hnum : number_reader num_text num_scanner.
Hypothesis Hcoords : forall p l, coords_of p l ->
  exists x y z, l = [x; y; z] /\ vk_point V (Some x) (Some y) (Some z) = Ok p.
Hypothesis Hdim : (0 < kdim (vk_kind V) <= 3)%nat.
Hypothesis Hcor : (kcorners (vk_kind V) <= 8)%nat.
Local Notation P := (kpoint (vk_kind V)).
Local Notation K := (vk_kind V).
Local Notation VS := (mkVst V).

Lemma cells_line_any : forall l r m L f, one_line l -> starts_with "CELLS" l ->
  exists L', l_line L' = l /\ mesh_loop V num_scanner (S f) (VS m (in_text (l ++ newline :: r)) L) =
    (cells_section V ;;; mesh_loop V num_scanner f) (VS m (in_text r) L').
Proof.
  intros l r m L f H1 H2. exists (mkLoc l (l_np L) (l_nc L) (l_uli L) (l_cell L) (l_x L) (l_y L) (l_z L)). split.
  2:{ cbn [mesh_loop v_in in_text is_eof]. unfold mbind at 1, mesh_iteration, mbind at 1, mmod. cbn [v_loc v_in v_mesh].
      fold (in_text (l ++ newline :: r)). rewrite (getline_one (l_line L) l r H1). unfold mbind, mget. cbn [v_loc l_line].
      rewrite (starts_other "CELLS" "POINTS" l H2 eq_refl eq_refl). apply prefix_of_spec in H2. rewrite H2.
      match goal with |- match match ?x with _ => _ end with _ => _ end = _ => destruct x as [v []| | | |] end; reflexivity. }
  reflexivity.
Qed.

Lemma types_line_any : forall l r m L f, one_line l -> starts_with "CELL_TYPES" l ->
  exists L', l_line L' = l /\ mesh_loop V num_scanner (S f) (VS m (in_text (l ++ newline :: r)) L) = types_section V (VS m (in_text r) L').
Proof.
  intros l r m L f H1 H2. exists (mkLoc l (l_np L) (l_nc L) (l_uli L) (l_cell L) (l_x L) (l_y L) (l_z L)). split.
  2:{ cbn [mesh_loop v_in in_text is_eof]. unfold mbind at 1, mesh_iteration, mbind at 1, mmod. cbn [v_loc v_in v_mesh].
      fold (in_text (l ++ newline :: r)). rewrite (getline_one (l_line L) l r H1). unfold mbind, mget. cbn [v_loc l_line].
      rewrite (starts_other "CELL_TYPES" "POINTS" l H2 eq_refl eq_refl), (starts_other "CELL_TYPES" "CELLS" l H2 eq_refl eq_refl).
      apply prefix_of_spec in H2. rewrite H2.
      match goal with |- match match ?x with _ => _ end with _ => _ end = _ => destruct x as [v []| | | |] end; reflexivity. }
  reflexivity.
Qed.

Lemma points_line_any : forall l r m L f, one_line l -> starts_with "POINTS" l ->
  exists L', l_line L' = l /\ mesh_loop V num_scanner (S f) (VS m (in_text (l ++ newline :: r)) L) =
    (points_section V num_scanner ;;; mesh_loop V num_scanner f) (VS m (in_text r) L').
Proof.
  intros l r m L f H1 H2. exists (mkLoc l (l_np L) (l_nc L) (l_uli L) (l_cell L) (l_x L) (l_y L) (l_z L)). split.
  2:{ cbn [mesh_loop v_in in_text is_eof]. unfold mbind at 1, mesh_iteration, mbind at 1, mmod. cbn [v_loc v_in v_mesh].
      fold (in_text (l ++ newline :: r)). rewrite (getline_one (l_line L) l r H1). unfold mbind, mget. cbn [v_loc l_line].
      apply prefix_of_spec in H2. rewrite H2.
      match goal with |- match match ?x with _ => _ end with _ => _ end = _ => destruct x as [v []| | | |] end; reflexivity. }
  reflexivity.
Qed.

(** A points section whose points cannot be used. *)
Lemma points_section_ub : forall pts xs m u L d s, Forall2 coords_of pts xs -> tokens num_text d (List.concat xs) ->
  separated pts s -> s <> [] -> Z.of_nat (List.length pts) <= int_max ->
  count_line "POINTS" (Z.of_nat (List.length pts)) (l_line L) -> mesh_points pts m = RUB u ->
  points_section V num_scanner (VS m (in_text (d ++ s)) L) = RUB u.
Proof.
  intros pts xs m u L d s Hc Hd Hs Hne Hn Hl Hm. unfold points_section, mbind, mmod, mget.
  cbn [v_loc v_in v_mesh l_line l_np]. rewrite (header_count_ok _ _ _ _ (proj1 words_ok) Hl). cbn [read_member].
  unfold mlift at 1. cbv zeta.
  assert (Hsz : max_elems (8 * Z.of_nat (kdim (vk_kind V))) <? Z.of_nat (List.length pts) = false).
  { unfold max_elems, int_max in *. apply Z.ltb_ge.
    assert (kdim (vk_kind V) = 1 \/ kdim (vk_kind V) = 2 \/ kdim (vk_kind V) = 3)%nat as [-> |[-> | ->]] by (clear -Hdim; lia); 
      (etransitivity; [exact Hn|]); vm_compute; discriminate. }
  unfold check_size. rewrite Hsz. unfold mret at 1.
  replace (INT_MAX <? Z.of_nat (List.length pts)) with false by (clear -Hn; unfold INT_MAX, int_max in *; lia).
  rewrite Nat2Z.id.
  match goal with |- match read_points V num_scanner _ (VS m ?st ?L1) with _ => _ end = _ =>
    destruct (read_points_block V num_text num_scanner coords_of Hnum Hcoords pts xs m L1 d s Hc Hd Hs Hne) as (L2 & E) end.
  rewrite E. unfold on_mesh. cbn [v_mesh v_in v_loc]. rewrite Hm. reflexivity.
Qed.

Lemma read_cells_ub : forall cells i m u L d s, Forall (fun c => Z.of_nat (List.length c) <= int_max) cells ->
  tokens ulong_text d (List.concat (map (fun c => Z.of_nat (List.length c) :: c) cells)) -> ends_word s ->
  cells_loop i cells m = RUB u ->
  read_cells V (List.length cells) i (VS m (at_text (d ++ s)) L) = RUB u.
Proof.
  induction cells as [|c cells IH]; intros i m u L d s Hn Hd Hs H; [discriminate|].
  inversion Hn as [|? ? Hc1 Hc2]; subst. cbn [map List.concat] in Hd.
  destruct (read_cell_ok V c m L d _ s Hc1 Hd Hs) as (r & L1 & H1 & H2 & E1).
  cbn [cells_loop] in H. unfold mbind, mget, mlift, mput in H.
  cbn [List.length read_cells]. unfold mbind at 1. rewrite E1. unfold mbind, mget. cbn [v_loc]. rewrite H2.
  unfold on_mesh at 1, build_cell, mbind, mget, mlift, mput. cbn [v_mesh v_in v_loc].
  destruct (cell_interp (me_node m) i c) as [its| | |u'|] eqn:Ei; try discriminate.
  - eapply IH; eauto.
  - injection H as ->. reflexivity.
Qed.

Lemma cells_section_ub : forall cells m u L d s, Forall (fun c => Z.of_nat (List.length c) <= int_max) cells ->
  tokens ulong_text d (List.concat (map (fun c => Z.of_nat (List.length c) :: c) cells)) ->
  separated cells s -> Z.of_nat (List.length cells) <= int_max ->
  count_line "CELLS" (Z.of_nat (List.length cells)) (l_line L) -> cells_loop 0 cells m = RUB u ->
  cells_section V (VS m (in_text (d ++ s)) L) = RUB u.
Proof.
  intros cells m u L d s Hcs Hd Hs Hn Hl Hm. unfold cells_section, mbind, mmod, mget.
  cbn [v_loc v_in v_mesh l_line l_nc]. rewrite (header_count_ok _ _ _ _ (proj1 (proj2 words_ok)) Hl). cbn [read_member].
  unfold mlift at 1. unfold check_size.
  replace (max_elems 8 <? _) with false.
  2:{ symmetry. apply Z.ltb_ge. clear -Hcor Hn. unfold int_max in Hn. transitivity (2147483647 * 8); [|vm_compute; discriminate].
      rewrite Z.mod_small; [nia|]. unfold ULONG_MAX. nia. }
  unfold mret at 1.
  replace (Z.min (Z.of_nat (List.length cells)) (INT_MAX + 1)) with (Z.of_nat (List.length cells)) by (clear -Hn; unfold INT_MAX, int_max in *; lia).
  rewrite Nat2Z.id.
  destruct cells as [|c cells]; [discriminate|]. destruct Hs as [?|Hs]; [discriminate|].
  assert (Hat : in_text (d ++ s) = at_text (d ++ s)).
  { symmetry. apply at_in. cbn [map List.concat app] in Hd. pose proof (tokens_ne _ _ _ _ _ _ ulong_reader Hd). destruct d; [congruence|discriminate]. }
  rewrite Hat, (read_cells_ub _ 0 m u _ d s Hcs Hd Hs Hm). reflexivity.
Qed.

Lemma read_types_exit : forall types m L d s, Exists (fun k => ~ supported_type k) types -> tokens ulong_text d types -> ends_word s ->
  read_types V (List.length types) (VS m (at_text (d ++ s)) L) = RExit.
Proof.
  induction types as [|k types IH]; intros m L d s Hk Hd Hs; [inversion Hk|].
  destruct (extract_first _ _ _ (l_uli L) d _ _ s ulong_reader Hd Hs) as (r1 & H1 & E1).
  assert (Hat : at_text (d ++ s) = in_text (d ++ s)).
  { apply at_in. pose proof (tokens_ne _ _ _ _ _ _ ulong_reader Hd). destruct d; [congruence|discriminate]. }
  cbn [List.length read_types]. unfold mbind, mmod, mget. cbn [v_loc v_in v_mesh]. rewrite Hat, E1.
  cbn [v_loc v_in v_mesh l_uli read_member]. unfold mlift at 1.
  destruct (negb (k =? 9) && negb (k =? 12)) eqn:E; [reflexivity|]. apply IH; auto.
  inversion Hk as [? ? Hk1|? ? Hk2]; subst; [|exact Hk2]. exfalso. apply Hk1. clear -E. unfold supported_type. lia.
Qed.

Lemma types_section_exit : forall types m L d s, Exists (fun k => ~ supported_type k) types -> tokens ulong_text d types ->
  separated types s -> Z.of_nat (List.length types) <= int_max ->
  count_line "CELL_TYPES" (Z.of_nat (List.length types)) (l_line L) ->
  types_section V (VS m (in_text (d ++ s)) L) = RExit.
Proof.
  intros types m L d s Hk Hd Hs Hn Hl. unfold types_section, mbind, mmod, mget.
  cbn [v_loc v_in v_mesh l_line l_nc]. rewrite (header_count_ok _ _ _ _ (proj1 (proj2 (proj2 words_ok))) Hl). cbn [read_member].
  unfold mlift at 1.
  replace (Z.min (Z.of_nat (List.length types)) (INT_MAX + 1)) with (Z.of_nat (List.length types)) by (clear -Hn; unfold INT_MAX, int_max in *; lia).
  rewrite Nat2Z.id. destruct types as [|k types]; [inversion Hk|]. destruct Hs as [?|Hs]; [discriminate|].
  assert (Hat : in_text (d ++ s) = at_text (d ++ s)).
  { symmetry. apply at_in. pose proof (tokens_ne _ _ _ _ _ _ ulong_reader Hd). destruct d; [congruence|discriminate]. }
  rewrite Hat, (read_types_exit _ m _ d s Hk Hd Hs). reflexivity.
Qed.

(** *** A bad cell *)

Lemma vget_bad : forall (A : Type) (l : list A) i, ~ (0 <= i < Z.of_nat (List.length l)) -> vget l i = UB UBOutOfBounds.
Proof.
  intros A l i H. unfold vget. destruct (0 <=? i) eqn:E; [|reflexivity]. destruct (nth_error l (Z.to_nat i)) eqn:N; [|reflexivity].
  exfalso. assert (Z.to_nat i < List.length l)%nat by (apply nth_error_Some; congruence). lia.
Qed.

Lemma vget_dec : forall (A : Type) (l : list A) i, (exists a, vget l i = Ok a) \/ vget l i = UB UBOutOfBounds.
Proof. intros A l i. unfold vget. destruct (0 <=? i); [|auto]. destruct (nth_error l (Z.to_nat i)); eauto. Qed.

Definition corner_ok (node : list P) (cell : list Z) (j : Z) : Prop := exists a p, vget cell j = Ok a /\ vget node a = Ok p.

Lemma corner_dec : forall node cell j, corner_ok node cell j \/
  forall (A : Type) (k : Z -> P -> outcome A), (let* a := vget cell j in let* p := vget node a in k a p) = UB UBOutOfBounds.
Proof.
  intros node cell j. destruct (vget_dec _ cell j) as [(a & Ea)|Ea]; [|right; intros; rewrite Ea; reflexivity].
  destruct (vget_dec _ node a) as [(p & Ep)|Ep]; [left; exists a, p; auto|right; intros; rewrite Ea; cbn [obind]; rewrite Ep; reflexivity].
Qed.

Lemma omap_ub : forall (A B : Type) (f : A -> outcome B) l, (forall a, In a l -> (exists b, f a = Ok b) \/ f a = UB UBOutOfBounds) ->
  (exists a, In a l /\ f a = UB UBOutOfBounds) -> omap f l = UB UBOutOfBounds.
Proof.
  intros A B f l. induction l as [|x l IH]; intros H (a & Ha & Hf); [destruct Ha|]. cbn [omap].
  destruct (H x (or_introl eq_refl)) as [(b & E)|E]; rewrite E; cbn [obind]; [|reflexivity].
  rewrite IH; [reflexivity| |].
  - intros y Hy. apply H. right. exact Hy.
  - destruct Ha as [->|Ha]; [congruence|]. exists a. auto.
Qed.

Lemma cell_bad_ub : forall node i cell, Forall (fun a => 0 <= a) cell -> bad_cell (kcorners K) (List.length node) cell ->
  cell_interp (K := K) node i cell = UB UBOutOfBounds.
Proof.
  intros node i cell Hpos Hbad.
  assert (G : exists j, (j < kcorners K)%nat /\ ~ corner_ok node cell (Z.of_nat j)).
  { destruct Hbad as [Hs|(j & a & Hj & Hn & Ha)].
    - exists (List.length cell). split; [exact Hs|]. intros (a & p & E & _). rewrite vget_bad in E; [discriminate|]. clear; lia.
    - exists j. split; [exact Hj|]. intros (a' & p & E & E'). apply vget_some in E. destruct E as [_ E]. rewrite Nat2Z.id in E.
      rewrite Hn in E. injection E as <-. rewrite vget_bad in E'; [discriminate|]. clear -Ha; lia. }
  unfold cell_interp. destruct (corner_dec node cell (kfar K)) as [(cf & pf & E1 & E2)|E]; [|apply E].
  rewrite E1. cbn [obind]. rewrite E2. cbn [obind].
  destruct (corner_dec node cell 0) as [(c0 & p0 & E3 & E4)|E]; [|apply E].
  rewrite E3. cbn [obind]. rewrite E4. cbn [obind].
  destruct G as (j & Hj & Hn). apply omap_ub.
  - intros k _. destruct (corner_dec node cell (Z.of_nat k)) as [(ck & pk & G1 & G2)|E]; [left|right; apply E].
    rewrite G1. cbn [obind]. rewrite G2. cbn [obind]. eauto.
  - exists j. split; [apply in_seq; clear -Hj; lia|]. destruct (corner_dec node cell (Z.of_nat j)) as [H|E]; [contradiction|apply E].
Qed.

Lemma cell_interp_two : forall node i cell,
  (exists its, cell_interp (K := K) node i cell = Ok its) \/ cell_interp (K := K) node i cell = UB UBOutOfBounds.
Proof.
  intros node i cell. unfold cell_interp. destruct (corner_dec node cell (kfar K)) as [(cf & pf & E1 & E2)|E]; [|right; apply E].
  rewrite E1. cbn [obind]. rewrite E2. cbn [obind].
  destruct (corner_dec node cell 0) as [(c0 & p0 & E3 & E4)|E]; [|right; apply E].
  rewrite E3. cbn [obind]. rewrite E4. cbn [obind].
  induction (seq 0 (kcorners K)) as [|k ks IH]; [left; eexists; reflexivity|]. cbn [omap].
  destruct (corner_dec node cell (Z.of_nat k)) as [(ck & pk & G1 & G2)|E].
  - rewrite G1. cbn [obind]. rewrite G2. cbn [obind]. destruct IH as [(its & ->)| ->]; [left; eexists; reflexivity|right; reflexivity].
  - right. rewrite E. reflexivity.
Qed.

Lemma cells_loop_ub : forall cells i (m : mesh O K), Forall (Forall (fun a => 0 <= a)) cells ->
  Exists (bad_cell (kcorners K) (List.length (me_node m))) cells -> cells_loop i cells m = RUB UBOutOfBounds.
Proof.
  induction cells as [|c cells IH]; intros i m Hp Hb; [inversion Hb|]. inversion Hp as [|? ? Hp1 Hp2]; subst.
  cbn [cells_loop]. unfold mbind, mget, mlift, mput.
  destruct (cell_interp_two (me_node m) i c) as [(its & E)|E]; rewrite E; [|reflexivity].
  apply IH; [exact Hp2|]. inversion Hb as [? ? Hb1|? ? Hb2]; subst; [|exact Hb2].
  rewrite (cell_bad_ub _ i _ Hp1 Hb1) in E. discriminate.
Qed.

(** *** Whole files *)

Lemma reach_points : forall m0 pts cells rest t fuel, upto_cells num_text coords_of pts cells rest t -> (List.length t < fuel)%nat ->
  exists xs pt s f L, Forall2 coords_of pts xs /\ tokens num_text pt (List.concat xs) /\ separated pts s /\ s <> [] /\
    Z.of_nat (List.length pts) <= int_max /\ count_line "POINTS" (Z.of_nat (List.length pts)) (l_line L) /\
    mesh_loop V num_scanner fuel (VS m0 (is_open (Some t)) loc_new) =
      (points_section V num_scanner ;;; mesh_loop V num_scanner f) (VS m0 (in_text (pt ++ s)) L) /\
    forall m1 L1, exists ct f2 L2, tokens ulong_text ct (List.concat (map (fun c => Z.of_nat (List.length c) :: c) cells)) /\
      separated cells rest /\ Z.of_nat (List.length cells) <= int_max /\ Forall (fun c => Z.of_nat (List.length c) <= int_max) cells /\
      count_line "CELLS" (Z.of_nat (List.length cells)) (l_line L2) /\ (List.length rest < f2)%nat /\
      mesh_loop V num_scanner f (VS m1 (in_text s) L1) =
        (cells_section V ;;; mesh_loop V num_scanner f2) (VS m1 (in_text (ct ++ rest)) L2).
Proof.
  intros m0 pts cells rest t fuel Ht Hfuel. destruct Ht as [pre ph xs pt mid ch ct Hpre Hph Hxs Hpt Hmid Hs1 Hch Hct Hs2 Hn1 Hn2 Hn4].
  change (is_open (Some ?x)) with (in_text x).
  match goal with |- context [VS m0 (in_text ?x)] => set (T := x) in * end.
  assert (Hlen : (List.length pre + (1 + (List.length mid + (1 + List.length rest))) <= List.length T)%nat).
  { unfold T. repeat (progress (rewrite ?app_length; cbn [List.length])). pose proof (lines_length pre). pose proof (lines_length mid). lia. }
  replace fuel with (List.length pre + S (List.length mid + S (fuel - List.length pre - List.length mid - 2)))%nat by lia.
  assert (Hf : (List.length rest < fuel - List.length pre - List.length mid - 2)%nat) by lia.
  remember (fuel - List.length pre - List.length mid - 2)%nat as f0. clear Heqf0. unfold T.
  destruct (filler_lines V num_scanner pre (ph ++ newline :: pt ++ lines mid ++ ch ++ newline :: ct ++ rest)
              m0 loc_new (S (List.length mid + S f0)) Hpre) as (L1 & E1).
  destruct (points_line_any ph (pt ++ lines mid ++ ch ++ newline :: ct ++ rest) m0 L1
              (List.length mid + S f0) (proj1 Hph) (starts_count _ _ _ Hph)) as (L2 & HL2 & E2).
  exists xs, pt, (lines mid ++ ch ++ newline :: ct ++ rest), (List.length mid + S f0)%nat, L2.
  split; [exact Hxs|]. split; [exact Hpt|]. split.
  { destruct Hs1 as [?|Hs1]; [left; auto|right]. rewrite app_assoc. apply ends_app_ne; auto.
    pose proof (count_line_ne _ _ _ Hch). destruct (lines mid); [auto|discriminate]. }
  split; [pose proof (count_line_ne _ _ _ Hch); destruct (lines mid); [destruct ch; [congruence|discriminate]|discriminate]|].
  split; [exact Hn1|]. split; [rewrite HL2; exact Hph|]. split; [exact (eq_trans E1 E2)|].
  intros m1 L3.
  destruct (filler_lines V num_scanner mid (ch ++ newline :: ct ++ rest) m1 L3 (S f0) Hmid) as (L4 & E4).
  destruct (cells_line_any ch (ct ++ rest) m1 L4 f0 (proj1 Hch) (starts_count _ _ _ Hch)) as (L5 & HL5 & E5).
  exists ct, f0, L5. repeat (split; [assumption|]). split; [rewrite HL5; exact Hch|]. split; [exact Hf|]. exact (eq_trans E4 E5).
Qed.

Lemma concat_nonneg : forall cells d, tokens ulong_text d (List.concat (map (fun c => Z.of_nat (List.length c) :: c) cells)) ->
  Forall (Forall (fun a => 0 <= a)) cells.
Proof.
  intros cells d H.
  assert (G : Forall (fun a => 0 <= a) (List.concat (map (fun c => Z.of_nat (List.length c) :: c) cells))).
  { remember (List.concat _) as zs eqn:E. clear E. induction H; constructor; auto. match goal with H : ulong_text _ _ |- _ => exact (ulong_nonneg _ _ H) end. }
  apply Forall_forall. intros c Hc. rewrite Forall_forall in *. intros a Ha. apply G. apply in_concat.
  exists (Z.of_nat (List.length c) :: c). split; [apply in_map_iff; eauto|right; exact Ha].
Qed.

Lemma no_points_ub : forall m0 pts cells rest t u fuel fs0, upto_cells num_text coords_of pts cells rest t -> (List.length t < fuel)%nat ->
  mesh_points pts m0 = RUB u -> body_read_vtk V num_scanner fuel (Some t) (mkBody V m0 fs0) = RUB u.
Proof.
  intros m0 pts cells rest t u fuel fs0 Ht Hf Hm.
  destruct (reach_points m0 pts cells rest t fuel Ht Hf) as (xs & pt & s & f & L & Hxs & Hpt & Hs & Hne & Hn & Hl & E & _).
  unfold body_read_vtk. cbn [bo_mesh bo_fields]. rewrite E. unfold mbind.
  rewrite (points_section_ub pts xs m0 u L pt s Hxs Hpt Hs Hne Hn Hl Hm). reflexivity.
Qed.

Lemma bad_cell_ub : forall m0 pts cells rest t m1 fuel fs0, upto_cells num_text coords_of pts cells rest t -> (List.length t < fuel)%nat ->
  mesh_points pts m0 = RRet m1 tt -> Exists (bad_cell (kcorners K) (List.length (me_node m1))) cells ->
  body_read_vtk V num_scanner fuel (Some t) (mkBody V m0 fs0) = RUB UBOutOfBounds.
Proof.
  intros m0 pts cells rest t m1 fuel fs0 Ht Hf Hm Hb.
  destruct (reach_points m0 pts cells rest t fuel Ht Hf) as (xs & pt & s & f & L & Hxs & Hpt & Hs & Hne & Hn & Hl & E & G).
  unfold body_read_vtk. cbn [bo_mesh bo_fields]. rewrite E. unfold mbind at 1.
  destruct (points_section_ok V num_text num_scanner coords_of Hnum Hcoords pts xs m0 m1 L pt s Hxs Hpt Hs Hne Hn Hdim Hl Hm) as (L1 & E1).
  rewrite E1. destruct (G m1 L1) as (ct & f2 & L2 & Hct & Hs2 & Hn2 & Hn4 & Hl2 & _ & E2). rewrite E2. unfold mbind.
  rewrite (cells_section_ub cells m1 _ L2 ct rest Hn4 Hct Hs2 Hn2 Hl2 (cells_loop_ub cells 0 m1 (concat_nonneg _ _ Hct) Hb)). reflexivity.
Qed.

Lemma bad_type_exit : forall m0 pts cells types rest t m mx fuel fs0, upto_types num_text coords_of pts cells types rest t ->
  (List.length t < fuel)%nat -> mesh_onto m0 pts cells m -> mesh_max_bin_size m = Ok mx -> Exists (fun k => ~ supported_type k) types ->
  body_read_vtk V num_scanner fuel (Some t) (mkBody V m0 fs0) = RExit.
Proof.
  intros m0 pts cells types rest t m mx fuel fs0 (mid' & th & tt0 & Hmid' & Hth & Htt & Hs3 & Hn3 & _ & Ht) Hf (m1 & Hm1 & Hm2) Hmx Hb.
  destruct (reach_points m0 pts cells _ t fuel Ht Hf) as (xs & pt & s & f & L & Hxs & Hpt & Hs & Hne & Hn & Hl & E & G).
  unfold body_read_vtk. cbn [bo_mesh bo_fields]. rewrite E. unfold mbind at 1.
  destruct (points_section_ok V num_text num_scanner coords_of Hnum Hcoords pts xs m0 m1 L pt s Hxs Hpt Hs Hne Hn Hdim Hl Hm1) as (L1 & E1).
  rewrite E1. destruct (G m1 L1) as (ct & f2 & L2 & Hct & Hs2 & Hn2 & Hn4 & Hl2 & Hf2 & E2). rewrite E2. unfold mbind.
  destruct (cells_section_ok V cells m1 m mx L2 ct _ Hn4 Hct Hs2
              ltac:(pose proof (count_line_ne _ _ _ Hth); destruct (lines mid'); [destruct th; [congruence|discriminate]|discriminate])
              Hn2 Hcor Hl2 Hm2 Hmx) as (L6 & E6).
  rewrite E6.
  assert (Hlen : (List.length mid' + 1 <= List.length (lines mid' ++ th ++ newline :: tt0 ++ rest))%nat).
  { repeat (progress (rewrite ?app_length; cbn [List.length])). pose proof (lines_length mid'). lia. }
  replace f2 with (List.length mid' + S (f2 - List.length mid' - 1))%nat by lia.
  destruct (filler_lines V num_scanner mid' (th ++ newline :: tt0 ++ rest) m L6 (S (f2 - List.length mid' - 1)) Hmid') as (L7 & E7). rewrite E7.
  destruct (types_line_any th (tt0 ++ rest) m L7 (f2 - List.length mid' - 1) (proj1 Hth) (starts_count _ _ _ Hth)) as (L8 & HL8 & E8).
  rewrite E8. rewrite <- HL8 in Hth. rewrite (types_section_exit types m L8 tt0 rest Hb Htt Hs3 Hn3 Hth). reflexivity.
Qed.
End Bad.
