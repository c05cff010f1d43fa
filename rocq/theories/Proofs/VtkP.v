(** Reading of well-formed files. *)
From Coq Require Import ZArith List Bool Ascii String Lia ZifyBool.
From Verif Require Import Model.Outcome Model.Num Model.PNDArray Model.Bin Model.PSimple Model.Interpolator Model.Quad
  Model.Hexahedron Model.Mesh Model.PField Model.Stream Model.Vtk.
From Verif Require Import Spec.Tensor Spec.Shape Spec.Fields Spec.Vtk.
From Verif Require Import Proofs.OutcomeP Proofs.FieldP Proofs.StreamP.
Import ListNotations.
Local Open Scope Z_scope.

Lemma ends_app_ne : forall t u, t <> [] -> ends_word t -> ends_word (t ++ u).
Proof. intros t u H [->|(c & t' & -> & Hc)]; [congruence|]. right. exists c, (t' ++ u). auto. Qed.

Lemma blanks_end : forall b t, b <> [] -> blanks b -> ends_word (b ++ t).
Proof. intros [|c b] t H Hb; [congruence|]. inversion Hb; subst. right. exists c, (b ++ t). auto. Qed.

Lemma header_count_ok : forall kw n l old, word (list_ascii_of_string kw) -> count_line kw n l -> header_count l old = Some n.
Proof.
  intros kw n l old Hk [_ (b & t & r & -> & Hne & Hb & Ht & Hr)]. unfold header_count.
  change (is_open (Some ?x)) with (in_text ([] ++ x)).
  rewrite (extract_tok _ _ _ None [] _ _ _ word_reader (Forall_nil _) (conj eq_refl Hk) (blanks_end b _ Hne Hb)).
  rewrite at_in by (destruct b; [congruence|discriminate]).
  rewrite (extract_tok _ _ _ old b t n r ulong_reader Hb Ht Hr). reflexivity.
Qed.

Lemma header_name_ok : forall kw nm l old, word (list_ascii_of_string kw) -> name_line kw nm l -> header_name l old = nm.
Proof.
  intros kw nm l old Hk [_ (b & r & -> & Hne & Hb & Hw & Hr)]. unfold header_name.
  change (is_open (Some ?x)) with (in_text ([] ++ x)).
  rewrite (extract_tok _ _ _ None [] _ _ _ word_reader (Forall_nil _) (conj eq_refl Hk) (blanks_end b _ Hne Hb)).
  rewrite at_in by (destruct b; [congruence|discriminate]).
  rewrite (extract_tok _ _ _ (Some old) b nm nm r word_reader Hb (conj eq_refl Hw) Hr). reflexivity.
Qed.

Lemma words_ok : word (txt "POINTS") /\ word (txt "CELLS") /\ word (txt "CELL_TYPES") /\ word (txt "POINT_DATA") /\ word (txt "SCALARS").
Proof.
  assert (H : forall w, w <> [] -> forallb (fun c => negb (space c)) w = true -> word w).
  { intros w Hw Hf. split; auto. rewrite forallb_forall in Hf. apply Forall_forall. intros c Hc Hb.
    apply space_blank in Hb. specialize (Hf c Hc). rewrite Hb in Hf. discriminate. }
  repeat split; try discriminate; apply H; (discriminate || reflexivity).
Qed.

Lemma starts_count : forall kw n l, count_line kw n l -> starts_with kw l.
Proof. intros kw n l [_ (b & t & r & -> & _)]. eexists; reflexivity. Qed.
Lemma starts_name : forall kw n l, name_line kw n l -> starts_with kw l.
Proof. intros kw n l [_ (b & r & -> & _)]. eexists; reflexivity. Qed.

(** Lines starting with one keyword do not start with another. *)
Lemma starts_other : forall w w' l, starts_with w l -> prefix_of (txt w') (txt w) = false -> prefix_of (txt w) (txt w') = false ->
  prefix_of (txt w') l = false.
Proof.
  intros w w' l (r & ->) H H'. fold (txt w). revert H H'. generalize (txt w). generalize (txt w').
  induction t as [|a t IH]; intros [|c u] H H'; simpl in *; try discriminate.
  destruct (Ascii.eqb_spec a c) as [->|Hne]; simpl in *; [|reflexivity].
  rewrite Ascii.eqb_refl in H'. apply IH; auto.
Qed.

Lemma vresize_length : forall (A : Type) (d : A) l n, List.length (vresize d l n) = n.
Proof. intros. unfold vresize. rewrite app_length, firstn_length, repeat_length. lia. Qed.

Section Read.
Context {O : NumOps} (V : vkind O) (num_text : text -> num O -> Prop) (num_scanner : scanner (num O)).
Context (coords_of : kpoint (vk_kind V) -> list (num O) -> Prop).
Hypothesis Hnum : number_reader num_text num_scanner.
Hypothesis Hcoords : forall p l, coords_of p l ->
  exists x y z, l = [x; y; z] /\ vk_point V (Some x) (Some y) (Some z) = Ok p.
Local Notation P := (kpoint (vk_kind V)).
Local Notation VS := (mkVst V).

Lemma read_point_ok : forall m L p xs d l s, coords_of p xs -> tokens num_text d (xs ++ l) -> ends_word s ->
  exists r L', tokens num_text r l /\
    read_point V num_scanner (VS m (at_text (d ++ s)) L) = RRet (VS m (at_text (r ++ s)) L') p.
Proof.
  intros m L p xs d l s Hp Hd Hs. destruct (Hcoords _ _ Hp) as (x & y & z & -> & Hv). cbn [app] in Hd.
  assert (N : forall (a : num O) l' t, tokens num_text t (a :: l') -> at_text (t ++ s) = in_text (t ++ s)).
  { intros a l' t Ht. apply at_in. pose proof (tokens_ne _ _ _ _ _ _ Hnum Ht). destruct t; [congruence|discriminate]. }
  destruct (extract_first _ _ _ (l_x L) d x _ s Hnum Hd Hs) as (r1 & H1 & E1).
  destruct (extract_first _ _ _ (l_y L) r1 y _ s Hnum H1 Hs) as (r2 & H2 & E2).
  destruct (extract_first _ _ _ (l_z L) r2 z _ s Hnum H2 Hs) as (r3 & H3 & E3).
  exists r3. eexists. split; [exact H3|]. unfold read_point. cbn [v_loc v_in v_mesh].
  rewrite (N _ _ _ Hd), E1, (N _ _ _ H1), E2, (N _ _ _ H2), E3. unfold mlift. rewrite Hv. reflexivity.
Qed.

Lemma read_points_ok : forall pts xs m L d s, Forall2 coords_of pts xs -> tokens num_text d (List.concat xs) -> ends_word s ->
  exists L', read_points V num_scanner (List.length pts) (VS m (at_text (d ++ s)) L) = RRet (VS m (at_text s) L') pts.
Proof.
  induction pts as [|p pts IH]; intros xs m L d s Hc Hd Hs; inversion Hc as [|? x ? xs' H1 H2]; subst.
  - apply tokens_nil in Hd. subst d. eexists. reflexivity.
  - cbn [List.concat] in Hd. destruct (read_point_ok m L p x d _ s H1 Hd Hs) as (r & L1 & Hr & E1).
    destruct (IH xs' m L1 r s H2 Hr Hs) as (L2 & E2). exists L2. cbn [List.length read_points]. unfold mbind. rewrite E1, E2. reflexivity.
Qed.

(** The same from the beginning of a data block. *)
Lemma read_points_block : forall pts xs m L d s, Forall2 coords_of pts xs -> tokens num_text d (List.concat xs) ->
  separated pts s -> s <> [] ->
  exists L', read_points V num_scanner (List.length pts) (VS m (in_text (d ++ s)) L) = RRet (VS m (in_text s) L') pts.
Proof.
  intros pts xs m L d s Hc Hd Hs Hne. rewrite <- (at_in (d ++ s)), <- (at_in s) by (first [assumption|destruct d; [assumption|discriminate]]).
  destruct Hs as [-> |Hs]; [|eapply read_points_ok; eauto].
  inversion Hc; subst. apply tokens_nil in Hd. subst d. eexists. reflexivity.
Qed.

Lemma points_section_ok : forall pts xs m m1 L d s, Forall2 coords_of pts xs -> tokens num_text d (List.concat xs) ->
  separated pts s -> s <> [] -> Z.of_nat (List.length pts) <= int_max -> (0 < kdim (vk_kind V) <= 3)%nat ->
  count_line "POINTS" (Z.of_nat (List.length pts)) (l_line L) -> mesh_points pts m = RRet m1 tt ->
  exists L', points_section V num_scanner (VS m (in_text (d ++ s)) L) = RRet (VS m1 (in_text s) L') tt.
Proof.
  intros pts xs m m1 L d s Hc Hd Hs Hne Hn Hdim Hl Hm. unfold points_section, mbind, mmod, mget.
  cbn [v_loc v_in v_mesh l_line l_np]. rewrite (header_count_ok _ _ _ _ (proj1 words_ok) Hl). cbn [read_member].
  unfold mlift at 1. cbv zeta.
  assert (Hsz : max_elems (8 * Z.of_nat (kdim (vk_kind V))) <? Z.of_nat (List.length pts) = false).
  { unfold max_elems, int_max in *. apply Z.ltb_ge.
    assert (kdim (vk_kind V) = 1 \/ kdim (vk_kind V) = 2 \/ kdim (vk_kind V) = 3)%nat as [-> |[-> | ->]] by lia; 
      (etransitivity; [exact Hn|]); vm_compute; discriminate. }
  unfold check_size. rewrite Hsz. unfold mret at 1.
  replace (INT_MAX <? Z.of_nat (List.length pts)) with false by (unfold INT_MAX, int_max in *; lia).
  rewrite Nat2Z.id.
  match goal with |- exists L', match read_points V num_scanner _ (VS m ?st ?L1) with _ => _ end = _ =>
    destruct (read_points_block pts xs m L1 d s Hc Hd Hs Hne) as (L2 & E) end.
  exists L2. rewrite E. unfold on_mesh. cbn [v_mesh v_in v_loc]. rewrite Hm. reflexivity.
Qed.

(** ** Cells *)

Lemma read_ids_ok : forall c pre old m L d l s, l_cell L = pre ++ old -> List.length old = List.length c ->
  tokens ulong_text d (c ++ l) -> ends_word s ->
  exists r L', tokens ulong_text r l /\ l_cell L' = pre ++ c /\ l_uli L' = l_uli L /\
    read_ids V (List.length c) (Z.of_nat (List.length pre)) (VS m (at_text (d ++ s)) L) = RRet (VS m (at_text (r ++ s)) L') tt.
Proof.
  induction c as [|a c IH]; intros pre old m L d l s HL Hlen Hd Hs.
  - exists d, L. destruct old; [|discriminate]. auto.
  - destruct old as [|o old]; [discriminate|]. cbn [app] in Hd.
    destruct (extract_first _ _ _ (Some o) d a _ s ulong_reader Hd Hs) as (r1 & H1 & E1).
    assert (Hat : at_text (d ++ s) = in_text (d ++ s)).
    { apply at_in. pose proof (tokens_ne _ _ _ _ _ _ ulong_reader Hd). destruct d; [congruence|discriminate]. }
    cbn [List.length read_ids]. unfold mbind at 1 2, mget at 1. cbn [v_loc v_in v_mesh]. rewrite HL, vget_mid. unfold mlift at 1.
    rewrite Hat, E1. cbn [read_member]. unfold mbind at 2 3, mlift at 1 2. rewrite vset_mid. cbn [mput mbind].
    set (L1 := mkLoc _ _ _ _ _ _ _ _).
    destruct (IH (pre ++ [a]) old m L1 r1 l s) as (r & L' & H2 & H3 & H4 & H5); auto.
    + unfold L1. cbn [l_cell]. now rewrite <- app_assoc.
    + exists r, L'. split; [exact H2|]. split; [rewrite H3, <- app_assoc; reflexivity|]. split; [exact H4|].
      replace (Z.of_nat (List.length pre) + 1) with (Z.of_nat (List.length (pre ++ [a]))) by (rewrite app_length; simpl; lia).
      unfold mbind, mlift, mput. exact H5.
Qed.

Lemma read_cell_ok : forall c m L d l s, Z.of_nat (List.length c) <= int_max ->
  tokens ulong_text d ((Z.of_nat (List.length c) :: c) ++ l) -> ends_word s ->
  exists r L', tokens ulong_text r l /\ l_cell L' = c /\
    read_cell V (VS m (at_text (d ++ s)) L) = RRet (VS m (at_text (r ++ s)) L') tt.
Proof.
  intros c m L d l s Hn Hd Hs. cbn [app] in Hd.
  destruct (extract_first _ _ _ (l_uli L) d _ _ s ulong_reader Hd Hs) as (r1 & H1 & E1).
  assert (Hat : at_text (d ++ s) = in_text (d ++ s)).
  { apply at_in. pose proof (tokens_ne _ _ _ _ _ _ ulong_reader Hd). destruct d; [congruence|discriminate]. }
  unfold read_cell, mbind, mmod, mget. cbn [v_loc v_in v_mesh]. rewrite Hat, E1. cbn [v_loc v_in v_mesh l_uli read_member].
  unfold mlift at 1. unfold check_size.
  replace (max_elems 8 <? Z.of_nat (List.length c)) with false.
  2:{ symmetry. apply Z.ltb_ge. unfold int_max in Hn. etransitivity; [exact Hn|]. vm_compute. discriminate. }
  unfold mret at 1. replace (INT_MAX <? Z.of_nat (List.length c)) with false by (unfold INT_MAX, int_max in *; lia).
  rewrite Nat2Z.id. unfold mput. cbn [l_cell].
  set (L1 := mkLoc _ _ _ _ _ _ _ _).
  destruct (read_ids_ok c [] (vresize 0 (l_cell L) (List.length c)) m L1 r1 l s eq_refl (vresize_length _ _ _ _) H1 Hs)
    as (r & L' & H2 & H3 & _ & H5).
  exists r, L'. split; [exact H2|]. split; [exact H3|]. exact H5.
Qed.

Lemma read_cells_ok : forall cells i m m' L d s, Forall (fun c => Z.of_nat (List.length c) <= int_max) cells ->
  tokens ulong_text d (List.concat (map (fun c => Z.of_nat (List.length c) :: c) cells)) -> ends_word s ->
  cells_loop i cells m = RRet m' tt ->
  exists L', read_cells V (List.length cells) i (VS m (at_text (d ++ s)) L) = RRet (VS m' (at_text s) L') tt.
Proof.
  induction cells as [|c cells IH]; intros i m m' L d s Hn Hd Hs H.
  - apply tokens_nil in Hd. subst d. cbn [cells_loop] in H. unfold mret in H. injection H as <-. eexists. reflexivity.
  - inversion Hn as [|? ? Hc1 Hc2]; subst. cbn [map List.concat] in Hd.
    destruct (read_cell_ok c m L d _ s Hc1 Hd Hs) as (r & L1 & H1 & H2 & E1).
    cbn [cells_loop] in H. unfold mbind, mget, mlift, mput in H.
    destruct (cell_interp (me_node m) i c) as [its| | | |] eqn:Ei; try discriminate.
    match type of H with cells_loop _ _ ?m1 = _ => destruct (IH (i + 1) m1 m' L1 r s Hc2 H1 Hs H) as (L2 & E2) end.
    exists L2. cbn [List.length read_cells]. unfold mbind at 1. rewrite E1. unfold mbind, mget. cbn [v_loc]. rewrite H2.
    unfold on_mesh at 1, build_cell, mbind, mget, mlift, mput. cbn [v_mesh v_in v_loc]. rewrite Ei. exact E2.
Qed.

Lemma cells_section_ok : forall cells m m' mx L d s, Forall (fun c => Z.of_nat (List.length c) <= int_max) cells ->
  tokens ulong_text d (List.concat (map (fun c => Z.of_nat (List.length c) :: c) cells)) ->
  separated cells s -> s <> [] -> Z.of_nat (List.length cells) <= int_max -> (kcorners (vk_kind V) <= 8)%nat ->
  count_line "CELLS" (Z.of_nat (List.length cells)) (l_line L) -> mesh_cells cells m = RRet m' tt ->
  mesh_max_bin_size m' = Ok mx ->
  exists L', cells_section V (VS m (in_text (d ++ s)) L) = RRet (VS m' (in_text s) L') tt.
Proof.
  intros cells m m' mx L d s Hcs Hd Hs Hne Hn Hk Hl Hm Hmx. unfold cells_section, mbind, mmod, mget.
  cbn [v_loc v_in v_mesh l_line l_nc]. rewrite (header_count_ok _ _ _ _ (proj1 (proj2 words_ok)) Hl). cbn [read_member].
  unfold mlift at 1. unfold check_size.
  replace (max_elems 8 <? _) with false.
  2:{ symmetry. apply Z.ltb_ge. unfold int_max in Hn. transitivity (2147483647 * 8); [|vm_compute; discriminate].
      rewrite Z.mod_small; [nia|]. unfold ULONG_MAX. nia. }
  unfold mret at 1.
  replace (Z.min (Z.of_nat (List.length cells)) (INT_MAX + 1)) with (Z.of_nat (List.length cells)) by (unfold INT_MAX, int_max in *; lia).
  rewrite Nat2Z.id.
  unfold mesh_cells, mbind in Hm. destruct (cells_loop 0 cells m) as [m1 []| | | |] eqn:Ec; try discriminate.
  assert (Hr : forall L1, exists L', read_cells V (List.length cells) 0 (VS m (in_text (d ++ s)) L1) = RRet (VS m1 (in_text s) L') tt).
  { intros L1. rewrite <- (at_in (d ++ s)), <- (at_in s) by (first [assumption|destruct d; [assumption|discriminate]]). destruct Hs as [-> |Hs]; [|eapply read_cells_ok; eauto].
    apply tokens_nil in Hd. subst d. cbn [cells_loop] in Ec. unfold mret in Ec. injection Ec as <-. eexists. reflexivity. }
  match goal with |- exists L', match read_cells V _ _ (VS m _ ?L1) with _ => _ end = _ => destruct (Hr L1) as (L2 & E) end.
  exists L2. rewrite E. replace (INT_MAX <? Z.of_nat (List.length cells)) with false by (unfold INT_MAX, int_max in *; lia).
  unfold on_mesh, bin_all, mbind, mget. cbn [v_mesh v_in v_loc]. unfold mget in Hm. rewrite Hm. unfold mlift. rewrite Hmx. reflexivity.
Qed.

(** ** Cell types *)
Lemma read_types_ok : forall types m L d s, Forall (fun k => k = 9 \/ k = 12) types -> tokens ulong_text d types -> ends_word s ->
  exists L', read_types V (List.length types) (VS m (at_text (d ++ s)) L) = RRet (VS m (at_text s) L') tt.
Proof.
  induction types as [|k types IH]; intros m L d s Hk Hd Hs.
  - apply tokens_nil in Hd. subst d. eexists. reflexivity.
  - inversion Hk as [|? ? Hk1 Hk2]; subst.
    destruct (extract_first _ _ _ (l_uli L) d _ _ s ulong_reader Hd Hs) as (r1 & H1 & E1).
    assert (Hat : at_text (d ++ s) = in_text (d ++ s)).
    { apply at_in. pose proof (tokens_ne _ _ _ _ _ _ ulong_reader Hd). destruct d; [congruence|discriminate]. }
    cbn [List.length read_types]. unfold mbind, mmod, mget. cbn [v_loc v_in v_mesh]. rewrite Hat, E1.
    cbn [v_loc v_in v_mesh l_uli read_member]. unfold mlift at 1.
    replace (negb (k =? 9) && negb (k =? 12)) with false by (destruct Hk1; subst; reflexivity).
    apply IH; auto.
Qed.

Lemma types_section_ok : forall types m L d s, Forall (fun k => k = 9 \/ k = 12) types -> tokens ulong_text d types ->
  separated types s -> Z.of_nat (List.length types) <= int_max ->
  count_line "CELL_TYPES" (Z.of_nat (List.length types)) (l_line L) ->
  exists L' st, (st = in_text s \/ st = at_text s) /\ types_section V (VS m (in_text (d ++ s)) L) = RRet (VS m st L') tt.
Proof.
  intros types m L d s Hk Hd Hs Hn Hl. unfold types_section, mbind, mmod, mget.
  cbn [v_loc v_in v_mesh l_line l_nc]. rewrite (header_count_ok _ _ _ _ (proj1 (proj2 (proj2 words_ok))) Hl). cbn [read_member].
  unfold mlift at 1.
  replace (Z.min (Z.of_nat (List.length types)) (INT_MAX + 1)) with (Z.of_nat (List.length types)) by (unfold INT_MAX, int_max in *; lia).
  rewrite Nat2Z.id. replace (INT_MAX <? Z.of_nat (List.length types)) with false by (unfold INT_MAX, int_max in *; lia).
  destruct types as [|k types].
  - apply tokens_nil in Hd. subst d. do 2 eexists. split; [left; reflexivity|]. reflexivity.
  - destruct Hs as [?|Hs]; [discriminate|].
    assert (Hat : in_text (d ++ s) = at_text (d ++ s)).
    { symmetry. apply at_in. pose proof (tokens_ne _ _ _ _ _ _ ulong_reader Hd). destruct d; [congruence|discriminate]. }
    rewrite Hat.
    match goal with |- exists L' st, _ /\ match read_types V _ (VS m _ ?L1) with _ => _ end = _ =>
      destruct (read_types_ok (k :: types) m L1 d s Hk Hd Hs) as (L2 & E) end.
    exists L2, (at_text s). split; [right; reflexivity|]. rewrite E. reflexivity.
Qed.

(** ** The loop over the lines of the mesh part *)

Lemma filler_line : forall l r m L f, mesh_filler l ->
  exists L', mesh_loop V num_scanner (S f) (VS m (in_text (l ++ newline :: r)) L) = mesh_loop V num_scanner f (VS m (in_text r) L').
Proof.
  intros l r m L f (H1 & H2 & H3 & H4). eexists. cbn [mesh_loop v_in in_text is_eof].
  unfold mbind at 1, mesh_iteration, mbind at 1, mmod. cbn [v_loc v_in v_mesh].
  fold (in_text (l ++ newline :: r)). rewrite (getline_one (l_line L) l r H1). unfold mbind, mget. cbn [v_loc l_line].
  rewrite (prefix_of_not _ _ H2), (prefix_of_not _ _ H3), (prefix_of_not _ _ H4). reflexivity.
Qed.

Lemma filler_lines : forall ls r m L f, Forall mesh_filler ls ->
  exists L', mesh_loop V num_scanner (List.length ls + f) (VS m (in_text (lines ls ++ r)) L) = mesh_loop V num_scanner f (VS m (in_text r) L').
Proof.
  induction ls as [|l ls IH]; intros r m L f H.
  - eexists. reflexivity.
  - inversion H; subst. unfold lines. cbn [map List.concat]. fold (lines ls). rewrite <- !app_assoc. cbn [app List.length plus].
    destruct (filler_line l (lines ls ++ r) m L (List.length ls + f) ltac:(auto)) as (L1 & E1). rewrite E1. apply IH; auto.
Qed.

Lemma points_line : forall l r m L f, one_line l -> starts_with "POINTS" l ->
  exists L', l_line L' = l /\ forall m' st L'', points_section V num_scanner (VS m (in_text r) L') = RRet (VS m' st L'') tt ->
    mesh_loop V num_scanner (S f) (VS m (in_text (l ++ newline :: r)) L) = mesh_loop V num_scanner f (VS m' st L'').
Proof.
  intros l r m L f H1 H2. eexists. split; [|intros m' st L'' H].
  2:{ cbn [mesh_loop v_in in_text is_eof]. unfold mbind at 1, mesh_iteration, mbind at 1, mmod. cbn [v_loc v_in v_mesh].
      fold (in_text (l ++ newline :: r)). rewrite (getline_one (l_line L) l r H1). unfold mbind, mget. cbn [v_loc l_line].
      apply prefix_of_spec in H2. rewrite H2, H. reflexivity. }
  reflexivity.
Qed.

Lemma cells_line : forall l r m L f, one_line l -> starts_with "CELLS" l ->
  exists L', l_line L' = l /\ forall m' st L'', cells_section V (VS m (in_text r) L') = RRet (VS m' st L'') tt ->
    mesh_loop V num_scanner (S f) (VS m (in_text (l ++ newline :: r)) L) = mesh_loop V num_scanner f (VS m' st L'').
Proof.
  intros l r m L f H1 H2. eexists. split; [|intros m' st L'' H].
  2:{ cbn [mesh_loop v_in in_text is_eof]. unfold mbind at 1, mesh_iteration, mbind at 1, mmod. cbn [v_loc v_in v_mesh].
      fold (in_text (l ++ newline :: r)). rewrite (getline_one (l_line L) l r H1). unfold mbind, mget. cbn [v_loc l_line].
      rewrite (starts_other "CELLS" "POINTS" l H2 eq_refl eq_refl). apply prefix_of_spec in H2. rewrite H2, H. reflexivity. }
  reflexivity.
Qed.

Lemma types_line : forall l r m L f, one_line l -> starts_with "CELL_TYPES" l ->
  exists L', l_line L' = l /\ forall m' st L'', types_section V (VS m (in_text r) L') = RRet (VS m' st L'') tt ->
    mesh_loop V num_scanner (S f) (VS m (in_text (l ++ newline :: r)) L) = RRet (VS m' st L'') tt.
Proof.
  intros l r m L f H1 H2. eexists. split; [|intros m' st L'' H].
  2:{ cbn [mesh_loop v_in in_text is_eof]. unfold mbind at 1, mesh_iteration, mbind at 1, mmod. cbn [v_loc v_in v_mesh].
      fold (in_text (l ++ newline :: r)). rewrite (getline_one (l_line L) l r H1). unfold mbind, mget. cbn [v_loc l_line].
      rewrite (starts_other "CELL_TYPES" "POINTS" l H2 eq_refl eq_refl), (starts_other "CELL_TYPES" "CELLS" l H2 eq_refl eq_refl).
      apply prefix_of_spec in H2. rewrite H2, H. reflexivity. }
  reflexivity.
Qed.

Lemma lines_length : forall ls, (List.length ls <= List.length (lines ls))%nat.
Proof.
  induction ls as [|l ls IH]; [apply le_n|]. unfold lines in *. cbn [map List.concat List.length].
  rewrite !app_length. cbn [List.length]. lia.
Qed.

Lemma count_line_ne : forall kw n l, count_line kw n l -> l <> [].
Proof.
  intros kw n l [_ (b & t & r & -> & Hne & _)]. destruct (list_ascii_of_string kw); [destruct b; [congruence|]|]; discriminate.
Qed.

(** The mesh part of a file. *)
Lemma mesh_text_ok : forall m0 pts cells fields t m mx fuel, (0 < kdim (vk_kind V) <= 3)%nat -> (kcorners (vk_kind V) <= 8)%nat ->
  vtk_text num_text coords_of pts cells fields t -> mesh_onto m0 pts cells m -> mesh_max_bin_size m = Ok mx ->
  (List.length t < fuel)%nat ->
  exists rest st L, data_text num_text None fields rest /\ (List.length rest <= List.length t)%nat /\
    (st = in_text rest \/ st = at_text rest) /\
    mesh_loop V num_scanner fuel (VS m0 (is_open (Some t)) loc_new) = RRet (VS m st L) tt.
Proof.
  intros m0 pts cells fields t m mx fuel Hdim Hcor Ht (m1 & Hm1 & Hm2) Hmx Hfuel.
  destruct Ht as [pre ph xs pt mid ch ct mid' th types tt0 rest Hpre Hph Hxs Hpt Hmid Hs1 Hch Hct Hmid' Hs2 Hth Htypes Htt Hs3 Hdata
                  Hn1 Hn2 Hn3 Hn4].
  exists rest. change (is_open (Some ?x)) with (in_text x).
  match goal with |- context [VS m0 (in_text ?x)] => set (T := x) in * end.
  assert (Hlen : (List.length pre + (1 + (List.length mid + (1 + (List.length mid' + (1 + List.length rest))))) <= List.length T)%nat).
  { unfold T. repeat (progress (rewrite ?app_length; cbn [List.length])). pose proof (lines_length pre). pose proof (lines_length mid). pose proof (lines_length mid'). lia. }
  replace fuel with (List.length pre + S (List.length mid + S (List.length mid' +
    S (fuel - List.length pre - List.length mid - List.length mid' - 3))))%nat by lia.
  remember (fuel - List.length pre - List.length mid - List.length mid' - 3)%nat as f0. clear Heqf0. unfold T.
  destruct (filler_lines pre (ph ++ newline :: pt ++ lines mid ++ ch ++ newline :: ct ++ lines mid' ++ th ++ newline :: tt0 ++ rest)
              m0 loc_new (S (List.length mid + S (List.length mid' + S f0))) Hpre) as (L1 & E1). rewrite E1. clear E1.
  (* points *)
  destruct (points_line ph (pt ++ lines mid ++ ch ++ newline :: ct ++ lines mid' ++ th ++ newline :: tt0 ++ rest) m0 L1
              (List.length mid + S (List.length mid' + S f0)) (proj1 Hph) (starts_count _ _ _ Hph)) as (L2 & HL2 & E2).
  rewrite <- HL2 in Hph.
  assert (Hs1' : separated pts (lines mid ++ ch ++ newline :: ct ++ lines mid' ++ th ++ newline :: tt0 ++ rest)).
  { destruct Hs1 as [?|Hs1]; [left; auto|right]. rewrite app_assoc. apply ends_app_ne; auto.
    pose proof (count_line_ne _ _ _ Hch). destruct (lines mid); [auto|discriminate]. }
  destruct (points_section_ok pts xs m0 m1 L2 pt _ Hxs Hpt Hs1'
              ltac:(pose proof (count_line_ne _ _ _ Hch); destruct (lines mid); [destruct ch; [congruence|discriminate]|discriminate])
              Hn1 Hdim Hph Hm1) as (L3 & E3).
  rewrite (E2 _ _ _ E3). clear E2 E3.
  (* lines between *)
  destruct (filler_lines mid (ch ++ newline :: ct ++ lines mid' ++ th ++ newline :: tt0 ++ rest) m1 L3 (S (List.length mid' + S f0)) Hmid)
    as (L4 & E4). rewrite E4. clear E4.
  (* cells *)
  destruct (cells_line ch (ct ++ lines mid' ++ th ++ newline :: tt0 ++ rest) m1 L4 (List.length mid' + S f0)
              (proj1 Hch) (starts_count _ _ _ Hch)) as (L5 & HL5 & E5).
  rewrite <- HL5 in Hch.
  assert (Hs2' : separated cells (lines mid' ++ th ++ newline :: tt0 ++ rest)).
  { destruct Hs2 as [?|Hs2]; [left; auto|right]. rewrite app_assoc. apply ends_app_ne; auto.
    pose proof (count_line_ne _ _ _ Hth). destruct (lines mid'); [auto|discriminate]. }
  destruct (cells_section_ok cells m1 m mx L5 ct _ Hn4 Hct Hs2'
              ltac:(pose proof (count_line_ne _ _ _ Hth); destruct (lines mid'); [destruct th; [congruence|discriminate]|discriminate])
              Hn2 Hcor Hch Hm2 Hmx) as (L6 & E6).
  rewrite (E5 _ _ _ E6). clear E5 E6.
  destruct (filler_lines mid' (th ++ newline :: tt0 ++ rest) m L6 (S f0) Hmid') as (L7 & E7). rewrite E7. clear E7.
  (* types *)
  destruct (types_line th (tt0 ++ rest) m L7 f0 (proj1 Hth) (starts_count _ _ _ Hth)) as (L8 & HL8 & E8).
  rewrite <- HL8 in Hth.
  destruct (types_section_ok types m L8 tt0 rest Htypes Htt Hs3 Hn3 Hth) as (L9 & st & Hst & E9).
  rewrite (E8 _ _ _ E9). exists st, L9. split; [exact Hdata|].
  split; [apply (Nat.le_trans _ (List.length T)); [lia|apply le_n]|]. auto.
Qed.

(** ** The data part *)

Lemma read_data_ok : forall values t r, tokens num_text t values -> ends_word r ->
  read_data num_scanner (List.length values) (at_text (t ++ r)) = (values, at_text r).
Proof.
  induction values as [|a values IH]; intros t r Ht Hr.
  - apply tokens_nil in Ht. subst t. reflexivity.
  - destruct (extract_first _ _ _ (Some (nofZ O 0)) t a _ r Hnum Ht Hr) as (r1 & H1 & E1).
    assert (Hat : at_text (t ++ r) = in_text (t ++ r)).
    { apply at_in. pose proof (tokens_ne _ _ _ _ _ _ Hnum Ht). destruct t; [congruence|discriminate]. }
    cbn [List.length read_data]. rewrite Hat, E1, (IH r1 r H1 Hr). reflexivity.
Qed.

Lemma read_data_block : forall values t r, tokens num_text t values -> separated values r ->
  exists st, (st = in_text r \/ st = at_text r) /\ read_data num_scanner (List.length values) (in_text (t ++ r)) = (values, st).
Proof.
  intros values t r Ht Hs. destruct values as [|a values].
  - apply tokens_nil in Ht. subst t. exists (in_text r). split; [left|]; reflexivity.
  - destruct Hs as [?|Hs]; [discriminate|]. exists (at_text r). split; [right; reflexivity|].
    rewrite <- (read_data_ok _ _ _ Ht Hs). f_equal. symmetry. apply at_in.
    pose proof (tokens_ne _ _ _ _ _ _ Hnum Ht). destruct t; [congruence|discriminate].
Qed.

Lemma data_text_end : forall np fs, data_text num_text np fs [] -> fs = [].
Proof.
  intros np fs H. inversion H; auto; match goal with H : _ ++ _ :: _ = [] |- _ => apply app_eq_nil in H; destruct H; discriminate end.
Qed.

Definition made_field (m : mesh O (vk_kind V)) (f : text * list (num O)) (p : pfield (scalar_field O)) : Prop :=
  pf_new (F := scalar_field O) (string_of_list_ascii (fst f)) m (snd f) (nofZ O 0) = Ok p.

Lemma body_text_ok : forall m mx np fs t, mesh_max_bin_size m = Ok mx -> data_text num_text np fs t ->
  forall fuel st fs0 line name, (List.length t < fuel)%nat -> (st = in_text t \/ st = at_text t) ->
  exists b ps, Forall2 (made_field m) fs ps /\ b_body V b = mkBody V m (fs0 ++ ps) /\
    body_loop V num_scanner fuel (mkBst V (mkBody V m fs0) st line name np) = RRet b tt.
Proof.
  intros m mx np fs t Hmx Ht.
  assert (Hend : forall np fs t, data_text num_text np fs t -> forall fuel st fs0 line name, st = at_text t -> st <> in_text t ->
    exists b ps, Forall2 (made_field m) fs ps /\ b_body V b = mkBody V m (fs0 ++ ps) /\
    body_loop V num_scanner fuel (mkBst V (mkBody V m fs0) st line name np) = RRet b tt).
  { intros np' fs' [|c t'] H fuel st fs0 line name -> Hne; [|exfalso; apply Hne; reflexivity].
    apply data_text_end in H. subst fs'. eexists. exists []. split; [constructor|]. split; [|destruct fuel; reflexivity].
    cbn [b_body]. now rewrite app_nil_r. }
  assert (Hgo : forall np fs t, data_text num_text np fs t ->
    (forall fuel fs0 line name, (List.length t < fuel)%nat ->
      exists b ps, Forall2 (made_field m) fs ps /\ b_body V b = mkBody V m (fs0 ++ ps) /\
      body_loop V num_scanner fuel (mkBst V (mkBody V m fs0) (in_text t) line name np) = RRet b tt) ->
    forall fuel st fs0 line name, (List.length t < fuel)%nat -> (st = in_text t \/ st = at_text t) ->
      exists b ps, Forall2 (made_field m) fs ps /\ b_body V b = mkBody V m (fs0 ++ ps) /\
      body_loop V num_scanner fuel (mkBst V (mkBody V m fs0) st line name np) = RRet b tt).
  { intros np' fs' t' H Hin fuel st fs0 line name Hf Hst. destruct t' as [|c t'].
    - destruct Hst as [-> | ->]; [apply Hin; auto|]. eapply Hend; eauto. discriminate.
    - destruct Hst as [-> | ->]; [apply Hin; auto|]. rewrite at_in by discriminate. apply Hin; auto. }
  apply Hgo; auto.
  induction Ht as [np l Hl|np l fs r Hl Hr IH|np n l fs r Hl Hr IH|n name0 l lk values t fs r Hl Hlk Hn Hmax Ht Hs Hr IH];
    intros fuel fs0 line name Hf; (destruct fuel as [|fuel]; [lia|]).
  - destruct Hl as (H1 & H2 & H3). eexists. exists []. split; [constructor|].
    split; [|cbn [body_loop b_in in_text is_eof]; unfold mbind at 1, body_iteration, mbind at 1, mmod; cbn [b_in b_line];
             fold (in_text l); rewrite (getline_end line l H1); unfold mbind, mget; cbn [b_line];
             rewrite (prefix_of_not _ _ H2), (prefix_of_not _ _ H3); destruct fuel; reflexivity].
    cbn [b_body]. now rewrite app_nil_r.
  - rewrite app_length in Hf. cbn [List.length] in Hf.
    destruct Hl as (H1 & H2 & H3). destruct (IH fuel fs0 l name ltac:(lia)) as (b & ps & Hps & Hb & E).
    exists b, ps. split; [exact Hps|]. split; [exact Hb|].
    cbn [body_loop b_in in_text is_eof]. unfold mbind at 1, body_iteration, mbind at 1, mmod. cbn [b_in b_line b_body b_name b_np].
    fold (in_text (l ++ newline :: r)). rewrite (getline_one line l r H1). unfold mbind, mget. cbn [b_line].
    rewrite (prefix_of_not _ _ H2), (prefix_of_not _ _ H3). exact E.
  - rewrite app_length in Hf. cbn [List.length] in Hf. destruct (IH fuel fs0 l name ltac:(lia)) as (b & ps & Hps & Hb & E).
    exists b, ps. split; [exact Hps|]. split; [exact Hb|].
    cbn [body_loop b_in in_text is_eof]. unfold mbind at 1, body_iteration, mbind at 1, mmod. cbn [b_in b_line b_body b_name b_np].
    fold (in_text (l ++ newline :: r)). rewrite (getline_one line l r (proj1 Hl)). unfold mbind, mget, mput. cbn [b_line b_in b_body b_name b_np].
    pose proof (proj2 (prefix_of_spec "POINT_DATA" l) (starts_count _ _ _ Hl)) as Hp. rewrite Hp.
    rewrite (header_count_ok _ _ _ _ (proj1 (proj2 (proj2 (proj2 words_ok)))) Hl). exact E.
  - rewrite app_length in Hf. cbn [List.length] in Hf. rewrite app_length in Hf. cbn [List.length] in Hf. rewrite app_length in Hf.
    destruct (read_data_block values t r Ht Hs) as (st & Hst & Ed).
    assert (Hp : exists p, made_field m (name0, values) p) by (unfold made_field, pf_new; rewrite Hmx; eexists; reflexivity).
    destruct Hp as (p & Hp).
    destruct (Hgo _ _ _ Hr IH fuel st (fs0 ++ [p]) lk name0 ltac:(lia) Hst) as (b & ps & Hps & Hb & E).
    exists b, (p :: ps). split; [constructor; auto|]. split; [rewrite Hb, <- app_assoc; reflexivity|].
    cbn [body_loop b_in in_text is_eof]. unfold mbind at 1, body_iteration, mbind at 1, mmod. cbn [b_in b_line b_body b_name b_np].
    fold (in_text (l ++ newline :: lk ++ newline :: t ++ r)). rewrite (getline_one line l _ (proj1 Hl)).
    unfold mbind at 1, mget. cbn [b_line].
    rewrite (starts_other "SCALARS" "POINT_DATA" l (starts_name _ _ _ Hl) eq_refl eq_refl).
    pose proof (proj2 (prefix_of_spec "SCALARS" l) (starts_name _ _ _ Hl)) as Hpre. rewrite Hpre.
    unfold scalars_section, mbind, mmod, mget. cbn [b_in b_line b_body b_name b_np].
    rewrite (getline_one l lk _ Hlk). cbn [b_in b_line b_body b_name b_np read_member]. unfold mlift at 1.
    unfold check_size. replace (max_elems 8 <? n) with false.
    2:{ symmetry. apply Z.ltb_ge. unfold int_max in Hmax. etransitivity; [exact Hmax|]. vm_compute. discriminate. }
    unfold mret at 1. replace (INT_MAX <? n) with false by (unfold INT_MAX, int_max in *; lia).
    rewrite Hn, Nat2Z.id, Ed.
    rewrite (header_name_ok _ _ _ _ (proj2 (proj2 (proj2 (proj2 words_ok)))) Hl). cbn [bo_mesh bo_fields].
    unfold made_field in Hp. cbn [fst snd] in Hp. unfold mlift. rewrite Hp. unfold mput. rewrite <- Hn. exact E.
Qed.

(** Reading a whole file, into any body. *)
Lemma body_onto_ok : forall m0 fs0 pts cells fields t m mx fuel, (0 < kdim (vk_kind V) <= 3)%nat -> (kcorners (vk_kind V) <= 8)%nat ->
  vtk_text num_text coords_of pts cells fields t -> mesh_onto m0 pts cells m -> mesh_max_bin_size m = Ok mx ->
  (List.length t < fuel)%nat ->
  exists ps, Forall2 (made_field m) fields ps /\
    body_read_vtk V num_scanner fuel (Some t) (mkBody V m0 fs0) = RRet (mkBody V m (fs0 ++ ps)) tt.
Proof.
  intros m0 fs0 pts cells fields t m mx fuel Hdim Hcor Ht Hm Hmx Hf.
  destruct (mesh_text_ok m0 pts cells fields t m mx fuel Hdim Hcor Ht Hm Hmx Hf) as (rest & st & L & Hd & Hlen & Hst & E).
  destruct (body_text_ok m mx None fields rest Hmx Hd fuel st fs0 [] [] ltac:(lia) Hst) as (b & ps & Hps & Hb & E2).
  exists ps. split; [exact Hps|]. unfold body_read_vtk. cbn [bo_mesh bo_fields]. rewrite E. cbn [v_mesh v_in].
  rewrite E2, Hb. reflexivity.
Qed.

Lemma body_read_ok : forall pts cells fields t m mx fuel, (0 < kdim (vk_kind V) <= 3)%nat -> (kcorners (vk_kind V) <= 8)%nat ->
  vtk_text num_text coords_of pts cells fields t -> mesh_of pts cells m -> mesh_max_bin_size m = Ok mx ->
  (List.length t < fuel)%nat ->
  exists ps, Forall2 (made_field m) fields ps /\
    body_read_vtk V num_scanner fuel (Some t) (body_new V) = RRet (mkBody V m ps) tt.
Proof. exact (body_onto_ok mesh_new []). Qed.

End Read.
