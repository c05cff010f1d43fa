(** Data parts whose header lines lack a count or a name. *)
From Coq Require Import ZArith List Bool Ascii String Lia ZifyBool.
From Verif Require Import Model.Outcome Model.Num Model.PNDArray Model.Bin Model.PSimple Model.Interpolator Model.Quad
  Model.Hexahedron Model.Mesh Model.PField Model.Stream Model.Vtk.
From Verif Require Import Spec.Tensor Spec.Shape Spec.Fields Spec.Vtk Spec.Malformed.
From Verif Require Import Proofs.OutcomeP Proofs.FieldP Proofs.StreamP Proofs.VtkP Proofs.VtkSpecP Proofs.MeshReadP.
Import ListNotations.
Local Open Scope Z_scope.

Lemma bare_extract : forall kw l, word (list_ascii_of_string kw) -> bare_line kw l ->
  exists s, snd (extract word_scanner None (is_open (Some l))) = s /\ forall (A : Type) (sc : scanner A) old, fst (extract sc old s) = old.
Proof.
  intros kw l Hk [_ (w & b & -> & Hw & Hb)]. rewrite app_assoc.
  assert (Hkw : word (list_ascii_of_string kw ++ w)).
  { destruct Hk as [K1 K2]. split; [destruct (list_ascii_of_string kw); [congruence|discriminate]|]. apply Forall_app. auto. }
  assert (He : ends_word b). { destruct b as [|c b]; [left; auto|right]. inversion Hb; subst. exists c, b. auto. }
  eexists. split; [reflexivity|]. intros A sc old.
  change (is_open (Some ?x)) with (in_text ([] ++ x)).
  rewrite (extract_tok _ _ _ None [] _ _ _ word_reader (Forall_nil _) (conj eq_refl Hkw) He). cbn [snd].
  unfold extract, at_text, is_good. cbn [is_eof is_fail is_rest]. destruct b as [|c b]; [reflexivity|].
  cbn [isnil orb negb andb]. rewrite <- (app_nil_r (c :: b)), (skip_blanks _ [] Hb). reflexivity.
Qed.
Lemma bare_name : forall kw l old, word (list_ascii_of_string kw) -> bare_line kw l -> header_name l old = old.
Proof.
  intros kw l old Hk Hl. destruct (bare_extract kw l Hk Hl) as (s & E & H). unfold header_name.
  destruct (extract word_scanner None (is_open (Some l))) as [a s']. cbn [snd] in E. subst s'. now rewrite H.
Qed.
Lemma bare_count : forall kw l old, word (list_ascii_of_string kw) -> bare_line kw l -> header_count l old = old.
Proof.
  intros kw l old Hk Hl. destruct (bare_extract kw l Hk Hl) as (s & E & H). unfold header_count.
  destruct (extract word_scanner None (is_open (Some l))) as [a s']. cbn [snd] in E. subst s'. now rewrite H.
Qed.
Lemma bare_starts : forall kw l, bare_line kw l -> starts_with kw l.
Proof. intros kw l [_ (w & b & -> & _)]. eexists. reflexivity. Qed.

Section Read.
Context {O : NumOps} (V : vkind O) (num_text : text -> num O -> Prop) (num_scanner : scanner (num O)).
Context (coords_of : kpoint (vk_kind V) -> list (num O) -> Prop).
Hypothesis Hnum : number_reader num_text num_scanner.
Hypothesis Hcoords : forall p l, coords_of p l ->
  exists x y z, l = [x; y; z] /\ vk_point V (Some x) (Some y) (Some z) = Ok p.
Local Notation P := (kpoint (vk_kind V)).
Local Notation VS := (mkVst V).

Lemma mesh_upto_ok : forall m0 pts cells types rest t m mx fuel, (0 < kdim (vk_kind V) <= 3)%nat -> (kcorners (vk_kind V) <= 8)%nat ->
  upto_types num_text coords_of pts cells types rest t -> Forall supported_type types -> mesh_onto m0 pts cells m -> mesh_max_bin_size m = Ok mx ->
  (List.length t < fuel)%nat ->
  exists st L, (List.length rest <= List.length t)%nat /\
    (st = in_text rest \/ st = at_text rest) /\
    mesh_loop V num_scanner fuel (VS m0 (is_open (Some t)) loc_new) = RRet (VS m st L) tt.
Proof.
  intros m0 pts cells types rest t m mx fuel Hdim Hcor Ht Htypes (m1 & Hm1 & Hm2) Hmx Hfuel.
  destruct Ht as (mid' & th & tt0 & Hmid' & Hth & Htt & Hs3 & Hn3 & Hs2 & H).
  destruct H as [pre ph xs pt mid ch ct Hpre Hph Hxs Hpt Hmid Hs1 Hch Hct Hs2'' Hn1 Hn2 Hn4].
  change (is_open (Some ?x)) with (in_text x).
  match goal with |- context [VS m0 (in_text ?x)] => set (T := x) in * end.
  assert (Hlen : (List.length pre + (1 + (List.length mid + (1 + (List.length mid' + (1 + List.length rest))))) <= List.length T)%nat).
  { unfold T. repeat (progress (rewrite ?app_length; cbn [List.length])). pose proof (lines_length pre). pose proof (lines_length mid). pose proof (lines_length mid'). lia. }
  replace fuel with (List.length pre + S (List.length mid + S (List.length mid' +
    S (fuel - List.length pre - List.length mid - List.length mid' - 3))))%nat by lia.
  remember (fuel - List.length pre - List.length mid - List.length mid' - 3)%nat as f0. clear Heqf0. unfold T.
  destruct (filler_lines V num_scanner pre (ph ++ newline :: pt ++ lines mid ++ ch ++ newline :: ct ++ lines mid' ++ th ++ newline :: tt0 ++ rest)
              m0 loc_new (S (List.length mid + S (List.length mid' + S f0))) Hpre) as (L1 & E1). rewrite E1. clear E1.
  (* points *)
  destruct (points_line V num_scanner ph (pt ++ lines mid ++ ch ++ newline :: ct ++ lines mid' ++ th ++ newline :: tt0 ++ rest) m0 L1
              (List.length mid + S (List.length mid' + S f0)) (proj1 Hph) (starts_count _ _ _ Hph)) as (L2 & HL2 & E2).
  rewrite <- HL2 in Hph.
  assert (Hs1' : separated pts (lines mid ++ ch ++ newline :: ct ++ lines mid' ++ th ++ newline :: tt0 ++ rest)).
  { destruct Hs1 as [?|Hs1]; [left; auto|right]. rewrite app_assoc. apply ends_app_ne; auto.
    pose proof (count_line_ne _ _ _ Hch). destruct (lines mid); [auto|discriminate]. }
  destruct (points_section_ok V num_text num_scanner coords_of Hnum Hcoords pts xs m0 m1 L2 pt _ Hxs Hpt Hs1'
              ltac:(pose proof (count_line_ne _ _ _ Hch); destruct (lines mid); [destruct ch; [congruence|discriminate]|discriminate])
              Hn1 Hdim Hph Hm1) as (L3 & E3).
  rewrite (E2 _ _ _ E3). clear E2 E3.
  (* lines between *)
  destruct (filler_lines V num_scanner mid (ch ++ newline :: ct ++ lines mid' ++ th ++ newline :: tt0 ++ rest) m1 L3 (S (List.length mid' + S f0)) Hmid)
    as (L4 & E4). rewrite E4. clear E4.
  (* cells *)
  destruct (cells_line V num_scanner ch (ct ++ lines mid' ++ th ++ newline :: tt0 ++ rest) m1 L4 (List.length mid' + S f0)
              (proj1 Hch) (starts_count _ _ _ Hch)) as (L5 & HL5 & E5).
  rewrite <- HL5 in Hch.
  assert (Hs2' : separated cells (lines mid' ++ th ++ newline :: tt0 ++ rest)).
  { destruct Hs2 as [?|Hs2]; [left; auto|right]. rewrite app_assoc. apply ends_app_ne; auto.
    pose proof (count_line_ne _ _ _ Hth). destruct (lines mid'); [auto|discriminate]. }
  destruct (cells_section_ok V cells m1 m mx L5 ct _ Hn4 Hct Hs2'
              ltac:(pose proof (count_line_ne _ _ _ Hth); destruct (lines mid'); [destruct th; [congruence|discriminate]|discriminate])
              Hn2 Hcor Hch Hm2 Hmx) as (L6 & E6).
  rewrite (E5 _ _ _ E6). clear E5 E6.
  destruct (filler_lines V num_scanner mid' (th ++ newline :: tt0 ++ rest) m L6 (S f0) Hmid') as (L7 & E7). rewrite E7. clear E7.
  (* types *)
  destruct (types_line V num_scanner th (tt0 ++ rest) m L7 f0 (proj1 Hth) (starts_count _ _ _ Hth)) as (L8 & HL8 & E8).
  rewrite <- HL8 in Hth.
  destruct (types_section_ok V types m L8 tt0 rest Htypes Htt Hs3 Hn3 Hth) as (L9 & st & Hst & E9).
  rewrite (E8 _ _ _ E9). exists st, L9.
  split; [apply (Nat.le_trans _ (List.length T)); [lia|apply le_n]|]. auto.
Qed.

Local Notation MF := (made_field V).
Local Notation reads m fs fuel fs0 st line last np :=
  (exists b ps, Forall2 (MF m) fs ps /\ b_body V b = mkBody V m (fs0 ++ ps) /\
    body_loop V num_scanner fuel (mkBst V (mkBody V m fs0) st line last np) = RRet b tt).

Lemma loose_end : forall np last fs, loose_data num_text np last fs [] -> fs = [].
Proof.
  intros np last fs H. inversion H; auto; match goal with H : _ ++ _ :: _ = [] |- _ => apply app_eq_nil in H; destruct H; discriminate end.
Qed.

(** One section of values. *)
Lemma one_field : forall m mx (fuel : nat) fs0 line last name n l lk values t r (E : header_name l last = name), mesh_max_bin_size m = Ok mx ->
  one_line l -> starts_with "SCALARS" l -> one_line lk -> n = Z.of_nat (List.length values) -> n <= int_max ->
  tokens num_text t values -> separated values r ->
  exists p st, MF m (name, values) p /\ (st = in_text r \/ st = at_text r) /\
    body_loop V num_scanner (S fuel) (mkBst V (mkBody V m fs0) (in_text (l ++ newline :: lk ++ newline :: t ++ r)) line last (Some n)) =
    body_loop V num_scanner fuel (mkBst V (mkBody V m (fs0 ++ [p])) st lk name (Some n)).
Proof.
  intros m mx fuel fs0 line last name n l lk values t r E Hmx Hl Hst Hlk Hn Hmax Ht Hs.
  destruct (read_data_block num_text num_scanner Hnum values t r Ht Hs) as (st & Hstx & Ed).
  assert (Hp : exists p, MF m (name, values) p) by (unfold made_field, pf_new; rewrite Hmx; eexists; reflexivity).
  destruct Hp as (p & Hp). exists p, st. split; [exact Hp|]. split; [exact Hstx|].
  cbn [body_loop b_in in_text is_eof]. unfold mbind at 1, body_iteration, mbind at 1, mmod. cbn [b_in b_line b_body b_name b_np].
  fold (in_text (l ++ newline :: lk ++ newline :: t ++ r)). rewrite (getline_one line l _ Hl).
  unfold mbind at 1, mget. cbn [b_line].
  rewrite (starts_other "SCALARS" "POINT_DATA" l Hst eq_refl eq_refl).
  pose proof (proj2 (prefix_of_spec "SCALARS" l) Hst) as Hpre. rewrite Hpre.
  unfold scalars_section, mbind, mmod, mget. cbn [b_in b_line b_body b_name b_np].
  rewrite (getline_one l lk _ Hlk). cbn [b_in b_line b_body b_name b_np read_member]. unfold mlift at 1.
  unfold check_size. replace (max_elems 8 <? n) with false.
  2:{ symmetry. apply Z.ltb_ge. unfold int_max in Hmax. etransitivity; [exact Hmax|]. vm_compute. discriminate. }
  unfold mret at 1. replace (INT_MAX <? n) with false by (unfold INT_MAX, int_max in *; lia).
  rewrite Hn, Nat2Z.id, Ed, E. cbn [bo_mesh bo_fields].
  unfold made_field in Hp. cbn [fst snd] in Hp. unfold mlift. rewrite Hp. unfold mput. rewrite <- Hn. reflexivity.
Qed.

Lemma one_count : forall m fuel fs0 line last np np' l r, one_line l -> starts_with "POINT_DATA" l -> header_count l np = np' ->
  body_loop V num_scanner (S fuel) (mkBst V (mkBody V m fs0) (in_text (l ++ newline :: r)) line last np) =
  body_loop V num_scanner fuel (mkBst V (mkBody V m fs0) (in_text r) l last np').
Proof.
  intros m fuel fs0 line last np np' l r Hl Hs E.
  cbn [body_loop b_in in_text is_eof]. unfold mbind at 1, body_iteration, mbind at 1, mmod. cbn [b_in b_line b_body b_name b_np].
  fold (in_text (l ++ newline :: r)). rewrite (getline_one line l r Hl). unfold mbind, mget, mput. cbn [b_line b_in b_body b_name b_np].
  rewrite (proj2 (prefix_of_spec "POINT_DATA" l) Hs), E. reflexivity.
Qed.

Lemma loose_text_ok : forall m mx np last fs t, mesh_max_bin_size m = Ok mx -> loose_data num_text np last fs t ->
  forall fuel st fs0 line, (List.length t < fuel)%nat -> (st = in_text t \/ st = at_text t) -> reads m fs fuel fs0 st line last np.
Proof.
  intros m mx np last fs t Hmx Ht.
  assert (Hgo : forall np last fs t, loose_data num_text np last fs t ->
    (forall fuel fs0 line, (List.length t < fuel)%nat -> reads m fs fuel fs0 (in_text t) line last np) ->
    forall fuel st fs0 line, (List.length t < fuel)%nat -> (st = in_text t \/ st = at_text t) -> reads m fs fuel fs0 st line last np).
  { intros np' last' fs' [|c t'] H Hin fuel st fs0 line Hf [-> | ->]; try (apply Hin; exact Hf).
    apply loose_end in H. subst fs'. eexists. exists []. split; [constructor|]. split; [|destruct fuel; reflexivity].
    cbn [b_body]. now rewrite app_nil_r. }
  apply Hgo; auto.
  destruct words_ok as (_ & _ & _ & WP & WS).
  induction Ht as [np last l Hl|np last l fs r Hl Hr IH|np last n l fs r Hl Hr IH|np last l fs r Hl Hr IH
      |n last name l lk values t fs r Hl Hlk Hn Hmax Ht Hs Hr IH|n last l lk values t fs r Hl Hlk Hn Hmax Ht Hs Hr IH];
    intros fuel fs0 line Hf; (destruct fuel as [|fuel]; [lia|]); rewrite ?app_length in Hf; cbn [List.length] in Hf.
  - destruct Hl as (H1 & H2 & H3). eexists. exists []. split; [constructor|].
    split; [|cbn [body_loop b_in in_text is_eof]; unfold mbind at 1, body_iteration, mbind at 1, mmod; cbn [b_in b_line];
             fold (in_text l); rewrite (getline_end line l H1); unfold mbind, mget; cbn [b_line];
             rewrite (prefix_of_not _ _ H2), (prefix_of_not _ _ H3); destruct fuel; reflexivity].
    cbn [b_body]. now rewrite app_nil_r.
  - destruct Hl as (H1 & H2 & H3). destruct (IH fuel fs0 l ltac:(lia)) as (b & ps & Hps & Hb & E).
    exists b, ps. split; [exact Hps|]. split; [exact Hb|].
    cbn [body_loop b_in in_text is_eof]. unfold mbind at 1, body_iteration, mbind at 1, mmod. cbn [b_in b_line b_body b_name b_np].
    fold (in_text (l ++ newline :: r)). rewrite (getline_one line l r H1). unfold mbind, mget. cbn [b_line].
    rewrite (prefix_of_not _ _ H2), (prefix_of_not _ _ H3). exact E.
  - rewrite (one_count m fuel fs0 line last np (Some n) l r (proj1 Hl) (starts_count _ _ _ Hl) (header_count_ok _ _ _ _ WP Hl)). apply IH. lia.
  - rewrite (one_count m fuel fs0 line last np np l r (proj1 Hl) (bare_starts _ _ Hl) (bare_count _ _ _ WP Hl)). apply IH. lia.
  - rewrite app_length in Hf. cbn [List.length] in Hf. rewrite app_length in Hf.
    destruct (one_field m mx fuel fs0 line last name n l lk values t r (header_name_ok _ _ _ _ WS Hl) Hmx (proj1 Hl) (starts_name _ _ _ Hl) Hlk Hn Hmax Ht Hs)
      as (p & st & Hp & Hst & E). rewrite E.
    destruct (Hgo _ _ _ _ Hr IH fuel st (fs0 ++ [p]) lk ltac:(lia) Hst) as (b & ps & Hps & Hb & E2).
    exists b, (p :: ps). split; [constructor; auto|]. split; [rewrite Hb, <- app_assoc; reflexivity|exact E2].
  - rewrite app_length in Hf. cbn [List.length] in Hf. rewrite app_length in Hf.
    destruct (one_field m mx fuel fs0 line last last n l lk values t r (bare_name _ _ _ WS Hl) Hmx (proj1 Hl) (bare_starts _ _ Hl) Hlk Hn Hmax Ht Hs)
      as (p & st & Hp & Hst & E). rewrite E.
    destruct (Hgo _ _ _ _ Hr IH fuel st (fs0 ++ [p]) lk ltac:(lia) Hst) as (b & ps & Hps & Hb & E2).
    exists b, (p :: ps). split; [constructor; auto|]. split; [rewrite Hb, <- app_assoc; reflexivity|exact E2].
Qed.

Lemma loose_read : forall pts cells types rest fields t m mx fuel, (0 < kdim (vk_kind V) <= 3)%nat -> (kcorners (vk_kind V) <= 8)%nat ->
  upto_types num_text coords_of pts cells types rest t -> Forall supported_type types -> loose_data num_text None [] fields rest ->
  mesh_of pts cells m -> mesh_max_bin_size m = Ok mx -> (List.length t < fuel)%nat ->
  exists ps, body_read_vtk V num_scanner fuel (Some t) (body_new V) = RRet (mkBody V m ps) tt /\ Forall2 (MF m) fields ps.
Proof.
  intros pts cells types rest fields t m mx fuel Hdim Hcor Ht Hty Hd Hm Hmx Hf.
  destruct (mesh_upto_ok mesh_new pts cells types rest t m mx fuel Hdim Hcor Ht Hty Hm Hmx Hf) as (st & L & Hlen & Hst & E).
  destruct (loose_text_ok m mx None [] fields rest Hmx Hd fuel st [] [] ltac:(lia) Hst) as (b & ps & Hps & Hb & E2).
  exists ps. split; [|exact Hps]. unfold body_read_vtk, body_new. cbn [bo_mesh bo_fields]. rewrite E. cbn [v_mesh v_in].
  rewrite E2, Hb. reflexivity.
Qed.

(** A field before any count. *)
Lemma uncounted_text : forall m fs0 pre l lk r fuel st line last, Forall (fun l => data_filler l \/ bare_line "POINT_DATA" l) pre ->
  one_line l -> starts_with "SCALARS" l -> one_line lk -> (List.length (lines pre ++ l ++ newline :: lk ++ newline :: r) < fuel)%nat ->
  st = in_text (lines pre ++ l ++ newline :: lk ++ newline :: r) \/ st = at_text (lines pre ++ l ++ newline :: lk ++ newline :: r) ->
  body_loop V num_scanner fuel (mkBst V (mkBody V m fs0) st line last None) = RUB UBUninit.
Proof.
  intros m fs0 pre l lk r. destruct words_ok as (_ & _ & _ & WP & WS). induction pre as [|x pre IH]; intros fuel st line last Hp Hl Hst Hlk Hf Hst'.
  - assert (st = in_text (l ++ newline :: lk ++ newline :: r)) as ->.
    { destruct Hst' as [-> | ->]; [reflexivity|]. apply at_in. cbn [lines List.concat map app]. destruct l; discriminate. }
    destruct fuel as [|fuel]; [lia|].
    cbn [body_loop b_in in_text is_eof]. unfold mbind at 1, body_iteration, mbind at 1, mmod. cbn [b_in b_line b_body b_name b_np].
    fold (in_text (l ++ newline :: lk ++ newline :: r)). rewrite (getline_one line l _ Hl).
    unfold mbind at 1, mget. cbn [b_line].
    rewrite (starts_other "SCALARS" "POINT_DATA" l Hst eq_refl eq_refl).
    rewrite (proj2 (prefix_of_spec "SCALARS" l) Hst).
    unfold scalars_section, mbind, mmod, mget. cbn [b_in b_line b_body b_name b_np].
    rewrite (getline_one l lk _ Hlk). reflexivity.
  - inversion Hp as [|? ? Hx Hp']; subst.
    assert (E : lines (x :: pre) ++ l ++ newline :: lk ++ newline :: r = x ++ newline :: (lines pre ++ l ++ newline :: lk ++ newline :: r)).
    { unfold lines. cbn [map List.concat]. rewrite <- !app_assoc. reflexivity. }
    rewrite E in *. rewrite app_length in Hf. cbn [List.length] in Hf.
    assert (st = in_text (x ++ newline :: (lines pre ++ l ++ newline :: lk ++ newline :: r))) as ->.
    { destruct Hst' as [-> | ->]; [reflexivity|]. apply at_in. destruct x; discriminate. }
    destruct fuel as [|fuel]; [lia|]. destruct Hx as [(H1 & H2 & H3)|Hx].
    + cbn [body_loop b_in in_text is_eof]. unfold mbind at 1, body_iteration, mbind at 1, mmod. cbn [b_in b_line b_body b_name b_np].
      fold (in_text (x ++ newline :: (lines pre ++ l ++ newline :: lk ++ newline :: r))). rewrite (getline_one line x _ H1). unfold mbind, mget. cbn [b_line].
      rewrite (prefix_of_not _ _ H2), (prefix_of_not _ _ H3). apply IH; auto. lia.
    + rewrite (one_count m fuel fs0 line last None None x _ (proj1 Hx) (bare_starts _ _ Hx) (bare_count _ _ _ WP Hx)). apply IH; auto. lia.
Qed.
Lemma uncounted_read : forall pts cells types pre l lk r t m mx fuel, (0 < kdim (vk_kind V) <= 3)%nat -> (kcorners (vk_kind V) <= 8)%nat ->
  upto_types num_text coords_of pts cells types (lines pre ++ l ++ newline :: lk ++ newline :: r) t -> Forall supported_type types ->
  Forall (fun l => data_filler l \/ bare_line "POINT_DATA" l) pre -> one_line l -> starts_with "SCALARS" l -> one_line lk ->
  mesh_of pts cells m -> mesh_max_bin_size m = Ok mx -> (List.length t < fuel)%nat ->
  body_read_vtk V num_scanner fuel (Some t) (body_new V) = RUB UBUninit.
Proof.
  intros pts cells types pre l lk r t m mx fuel Hdim Hcor Ht Hty Hp Hl Hs Hlk Hm Hmx Hf.
  destruct (mesh_upto_ok mesh_new pts cells types _ t m mx fuel Hdim Hcor Ht Hty Hm Hmx Hf) as (st & L & Hlen & Hst & E).
  unfold body_read_vtk, body_new. cbn [bo_mesh bo_fields]. rewrite E. cbn [v_mesh v_in].
  rewrite (uncounted_text m [] pre l lk r fuel st [] [] Hp Hl Hs Hlk ltac:(lia) Hst). reflexivity.
Qed.
End Read.

Lemma loose2 : forall (O : NumOps) num_text num_scanner pts cells types rest fields t (m : mesh O (quad_kind O)) fuel,
  number_reader num_text num_scanner -> upto_types num_text coords2 pts cells types rest t -> Forall supported_type types ->
  loose_data num_text None [] fields rest -> mesh_of (K := quad_kind O) pts cells m -> (List.length t < fuel)%nat ->
  exists ps, body_read_vtk (quad_vkind O) num_scanner fuel (Some t) (body_new (quad_vkind O)) = RRet (mkBody (quad_vkind O) m ps) tt /\
    Forall2 (fun f p => pf_new (F := scalar_field O) (string_of_list_ascii (fst f)) m (snd f) (nofZ O 0) = Ok p) fields ps /\
    Forall2 named_field fields ps.
Proof.
  intros O nt sc pts cells types rest fields t m fuel Hn Ht Hty Hd Hm Hf.
  destruct (mesh_of_size _ _ _ (quad_answering O) Hm) as (mx & Hmx).
  destruct (loose_read (quad_vkind O) nt sc coords2 Hn (coords2_point O) pts cells types rest fields t m mx fuel ltac:(cbn; lia) ltac:(cbn; lia) Ht Hty Hd Hm Hmx Hf)
    as (ps & E & Hps).
  exists ps. split; [exact E|]. split; [exact Hps|]. eapply Forall2_weaken; [|exact Hps]. intros; eapply made_named; eauto.
Qed.
Lemma loose3 : forall (O : NumOps) num_text num_scanner pts cells types rest fields t (m : mesh O (hex_kind O)) fuel,
  number_reader num_text num_scanner -> upto_types num_text coords3 pts cells types rest t -> Forall supported_type types ->
  loose_data num_text None [] fields rest -> mesh_of (K := hex_kind O) pts cells m -> (List.length t < fuel)%nat ->
  exists ps, body_read_vtk (hex_vkind O) num_scanner fuel (Some t) (body_new (hex_vkind O)) = RRet (mkBody (hex_vkind O) m ps) tt /\
    Forall2 (fun f p => pf_new (F := scalar_field O) (string_of_list_ascii (fst f)) m (snd f) (nofZ O 0) = Ok p) fields ps /\
    Forall2 named_field fields ps.
Proof.
  intros O nt sc pts cells types rest fields t m fuel Hn Ht Hty Hd Hm Hf.
  destruct (mesh_of_size _ _ _ (hex_answering O) Hm) as (mx & Hmx).
  destruct (loose_read (hex_vkind O) nt sc coords3 Hn (coords3_point O) pts cells types rest fields t m mx fuel ltac:(cbn; lia) ltac:(cbn; lia) Ht Hty Hd Hm Hmx Hf)
    as (ps & E & Hps).
  exists ps. split; [exact E|]. split; [exact Hps|]. eapply Forall2_weaken; [|exact Hps]. intros; eapply made_named; eauto.
Qed.
Lemma uncounted2 : forall (O : NumOps) num_text num_scanner pts cells types pre l lookup r t (m : mesh O (quad_kind O)) fuel,
  number_reader num_text num_scanner -> upto_types num_text coords2 pts cells types (lines pre ++ l ++ newline :: lookup ++ newline :: r) t ->
  Forall supported_type types -> Forall (fun l => data_filler l \/ bare_line "POINT_DATA" l) pre -> one_line l -> starts_with "SCALARS" l -> one_line lookup ->
  mesh_of (K := quad_kind O) pts cells m -> (List.length t < fuel)%nat ->
  body_read_vtk (quad_vkind O) num_scanner fuel (Some t) (body_new (quad_vkind O)) = RUB UBUninit.
Proof.
  intros O nt sc pts cells types pre l lk r t m fuel Hn Ht Hty Hp Hl Hs Hlk Hm Hf.
  destruct (mesh_of_size _ _ _ (quad_answering O) Hm) as (mx & Hmx).
  eapply (uncounted_read (quad_vkind O) nt sc coords2 Hn (coords2_point O)); eauto; cbn; lia.
Qed.
Lemma uncounted3 : forall (O : NumOps) num_text num_scanner pts cells types pre l lookup r t (m : mesh O (hex_kind O)) fuel,
  number_reader num_text num_scanner -> upto_types num_text coords3 pts cells types (lines pre ++ l ++ newline :: lookup ++ newline :: r) t ->
  Forall supported_type types -> Forall (fun l => data_filler l \/ bare_line "POINT_DATA" l) pre -> one_line l -> starts_with "SCALARS" l -> one_line lookup ->
  mesh_of (K := hex_kind O) pts cells m -> (List.length t < fuel)%nat ->
  body_read_vtk (hex_vkind O) num_scanner fuel (Some t) (body_new (hex_vkind O)) = RUB UBUninit.
Proof.
  intros O nt sc pts cells types pre l lk r t m fuel Hn Ht Hty Hp Hl Hs Hlk Hm Hf.
  destruct (mesh_of_size _ _ _ (hex_answering O) Hm) as (mx & Hmx).
  eapply (uncounted_read (hex_vkind O) nt sc coords3 Hn (coords3_point O)); eauto; cbn; lia.
Qed.
