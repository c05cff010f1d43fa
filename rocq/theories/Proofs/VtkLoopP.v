(** Termination of the reading loops. *)
From Coq Require Import ZArith List Bool Ascii String Lia ZifyBool.
From Verif Require Import Model.Outcome Model.Num Model.PNDArray Model.Bin Model.PSimple Model.Interpolator Model.Quad
  Model.Hexahedron Model.Mesh Model.PField Model.Stream Model.Vtk.
From Verif Require Import Spec.Tensor Spec.Shape Spec.Fields Spec.Vtk.
From Verif Require Import Proofs.OutcomeP.
Import ListNotations.
Local Open Scope Z_scope.

(** ** Streams only shrink, and flags are only added *)

(** [s'] may follow [s]: nothing is read from a stream that is not good. *)
Definition follows (s s' : istr) : Prop :=
  (List.length (is_rest s') <= List.length (is_rest s))%nat /\ (is_fail s = true -> is_fail s' = true) /\
  (is_good s = false -> is_eof s' = is_eof s).

Lemma follows_refl : forall s, follows s s.
Proof. intros s. repeat split; auto. Qed.
Lemma follows_trans : forall s1 s2 s3, follows s1 s2 -> follows s2 s3 -> follows s1 s3.
Proof.
  intros s1 s2 s3 (A1 & A2 & A3) (B1 & B2 & B3). split; [lia|]. split; [auto|]. intros H. rewrite B3; [auto|].
  unfold is_good in *. rewrite (A3 H). destruct (is_eof s1); [reflexivity|]. cbn in *. destruct (is_fail s1); [|discriminate].
  rewrite (A2 eq_refl). reflexivity.
Qed.

Lemma cut_line_length : forall t, (List.length (fst (cut_line t)) <= List.length t)%nat /\
  match snd (cut_line t) with Some r => (List.length r < List.length t)%nat | None => fst (cut_line t) = t end.
Proof.
  induction t as [|c t IH]; [cbn; auto|]. cbn [cut_line]. destruct (Ascii.eqb c nl); [cbn; split; lia|].
  destruct (cut_line t) as [l [r|]]; cbn in *; [lia|]. destruct IH as [? ->]. split; [lia|reflexivity].
Qed.

Lemma skip_space_length : forall t, (List.length (skip_space t) <= List.length t)%nat.
Proof. induction t as [|c t IH]; cbn; [lia|]. destruct (space c); cbn; lia. Qed.

Lemma good_or : forall s, is_good s = true -> is_eof s = false /\ is_fail s = false.
Proof. intros [t [] []] H; try discriminate; auto. Qed.

Lemma getline_follows : forall line s, follows s (snd (getline line s)).
Proof.
  intros line s. unfold getline. destruct (is_good s) eqn:G.
  - assert (H := cut_line_length (is_rest s)). destruct (cut_line (is_rest s)) as [l [r|]]; cbn in H |- *.
    + split; [cbn; lia|]. split; [|congruence]. apply good_or in G as [_ G]. congruence.
    + split; [cbn; lia|]. split; [|congruence]. apply good_or in G as [_ G]. congruence.
  - split; [cbn; lia|]. split; auto.
Qed.

Lemma extract_follows : forall (A : Type) (sc : scanner A) old s, consumes sc -> follows s (snd (extract sc old s)).
Proof.
  intros A sc old s Hsc. unfold extract. destruct (is_good s) eqn:G.
  - assert (H := skip_space_length (is_rest s)). destruct (skip_space (is_rest s)) as [|c t] eqn:E.
    + split; [cbn; lia|]. split; [reflexivity|congruence].
    + specialize (Hsc (c :: t)). destruct (sc (c :: t)) as [[v ok] r]. cbn in Hsc, H. split; [cbn; lia|]. split; [|congruence].
      apply good_or in G as [_ G]. congruence.
  - split; [cbn; lia|]. split; auto.
Qed.

Lemma scan_digits_length : forall t acc any, (List.length (snd (scan_digits acc any t)) <= List.length t)%nat.
Proof.
  induction t as [|c t IH]; intros acc any; cbn; [lia|]. destruct (digit c); cbn; [|lia].
  specialize (IH (acc * 10 + z) true). lia.
Qed.
Lemma ulong_consumes : consumes ulong_scanner.
Proof.
  intros t. unfold ulong_scanner, scan_signed. destruct t as [|c t]; [cbn; lia|].
  assert (H1 := scan_digits_length t 0 false). assert (H2 := scan_digits_length (c :: t) 0 false).
  destruct (Ascii.eqb c "-"); [|destruct (Ascii.eqb c "+")].
  - destruct (scan_digits 0 false t) as [[v any] r]. cbn in H1. destruct any; cbn; [|lia]. destruct (ULONG_MAX <? v); cbn; lia.
  - destruct (scan_digits 0 false t) as [[v any] r]. cbn in H1. destruct any; cbn; [|lia]. destruct (ULONG_MAX <? v); cbn; lia.
  - destruct (scan_digits 0 false (c :: t)) as [[v any] r]. cbn in H2. destruct any; cbn; [|lia]. destruct (ULONG_MAX <? v); cbn; lia.
Qed.

Section Loops.
Context {O : NumOps} (V : vkind O) (num_scanner : scanner (num O)).
Hypothesis Hnum : consumes num_scanner.
Local Notation vst := (vst V).

(** A step of the mesh part that keeps the stream's history. *)
Definition keeps {A : Type} (a : M vst A) : Prop := forall v v' x, a v = RRet v' x -> follows (v_in V v) (v_in V v').

Lemma keeps_ret : forall (A : Type) (x : A), keeps (mret x).
Proof. intros A x v v' y H. injection H as <- <-. apply follows_refl. Qed.
Lemma keeps_lift : forall (A : Type) (o : outcome A), keeps (mlift o).
Proof. intros A o v v' y H. unfold mlift in H. destruct o; try discriminate. injection H as <- <-. apply follows_refl. Qed.
Lemma keeps_get : keeps mget.
Proof. intros v v' y H. injection H as <- <-. apply follows_refl. Qed.
Lemma keeps_bind : forall (A B : Type) (a : M vst A) (k : A -> M vst B), keeps a -> (forall x, keeps (k x)) -> keeps (mbind a k).
Proof.
  intros A B a k Ha Hk v v' y H. unfold mbind in H. destruct (a v) as [v1 x| | | |] eqn:E; try discriminate.
  eapply follows_trans; [eapply Ha; eauto|eapply Hk; eauto].
Qed.
(** Reading the state and continuing from it. *)
Lemma keeps_get_bind : forall (B : Type) (k : vst -> M vst B),
  (forall v v' y, k v v = RRet v' y -> follows (v_in V v) (v_in V v')) -> keeps (mbind mget k).
Proof. intros B k Hk v v' y H. unfold mbind, mget in H. eauto. Qed.
Lemma keeps_mod : forall f, (forall v, follows (v_in V v) (v_in V (f v))) -> keeps (mmod f).
Proof. intros f Hf v v' y H. unfold mmod in H. injection H as <- <-. auto. Qed.
Lemma keeps_mesh : forall (A : Type) (a : M (mesh O (vk_kind V)) A), keeps (on_mesh V a).
Proof. intros A a v v' y H. unfold on_mesh in H. destruct (a (v_mesh V v)); try discriminate. injection H as <- <-. apply follows_refl. Qed.
Lemma keeps_size : forall b n, keeps (check_size b n).
Proof. intros b n. unfold check_size. destruct (_ <? _); [apply keeps_lift|apply keeps_ret]. Qed.
Lemma keeps_if : forall (A : Type) (c : bool) (a b : M vst A), keeps a -> keeps b -> keeps (if c then a else b).
Proof. intros A [] a b Ha Hb; auto. Qed.

Lemma read_point_keeps : keeps (read_point V num_scanner).
Proof.
  intros v v' p H. unfold read_point in H.
  assert (F1 := extract_follows _ num_scanner (l_x (v_loc V v)) (v_in V v) Hnum).
  destruct (extract num_scanner (l_x (v_loc V v)) (v_in V v)) as [x s1].
  assert (F2 := extract_follows _ num_scanner (l_y (v_loc V v)) s1 Hnum). destruct (extract num_scanner (l_y (v_loc V v)) s1) as [y s2].
  assert (F3 := extract_follows _ num_scanner (l_z (v_loc V v)) s2 Hnum). destruct (extract num_scanner (l_z (v_loc V v)) s2) as [z s3].
  cbn [snd] in *. unfold mlift in H. destruct (vk_point V x y z); try discriminate. injection H as <- <-. cbn [v_in].
  eapply follows_trans; [exact F1|]. eapply follows_trans; eauto.
Qed.
Lemma read_points_keeps : forall n, keeps (read_points V num_scanner n).
Proof.
  induction n; cbn [read_points]; [apply keeps_ret|]. apply keeps_bind; [apply read_point_keeps|]. intros p.
  apply keeps_bind; [apply IHn|]. intros. apply keeps_ret.
Qed.
Lemma points_keeps : keeps (points_section V num_scanner).
Proof.
  unfold points_section. apply keeps_bind; [apply keeps_mod; intros; apply follows_refl|]. intros _.
  apply keeps_bind; [apply keeps_get|]. intros v. apply keeps_bind; [apply keeps_lift|]. intros n.
  apply keeps_bind; [apply keeps_size|]. intros _. apply keeps_if; [apply keeps_lift|].
  apply keeps_bind; [apply read_points_keeps|]. intros. apply keeps_mesh.
Qed.

Lemma read_ids_keeps : forall n j, keeps (read_ids V n j).
Proof.
  induction n; intros j; cbn [read_ids]; [apply keeps_ret|]. apply keeps_get_bind. intros v v' y H.
  unfold mbind at 1 in H. unfold mlift at 1 in H. destruct (vget (l_cell (v_loc V v)) j) as [old| | | |]; try discriminate.
  assert (F := extract_follows _ ulong_scanner (Some old) (v_in V v) ulong_consumes).
  destruct (extract ulong_scanner (Some old) (v_in V v)) as [a s]. cbn [snd] in F.
  unfold mbind, mlift, mput in H. destruct (read_member a) as [a'| | | |]; try discriminate.
  destruct (vset (l_cell (v_loc V v)) j a') as [c| | | |]; try discriminate. apply IHn in H. cbn [v_in] in H.
  eapply follows_trans; eauto.
Qed.

Lemma put_same : forall m (v : vst) (k : unit -> M vst unit) v' y, (forall u, keeps (k u)) ->
  mbind (mput (mkVst V m (v_in V v) (v_loc V v))) k v = RRet v' y -> follows (v_in V v) (v_in V v').
Proof. intros m v k v' y Hk H. unfold mbind, mput in H. apply Hk in H. exact H. Qed.

Lemma uli_follows : forall v, follows (v_in V v) (v_in V (let l := v_loc V v in
                 let (u, s) := extract ulong_scanner (l_uli l) (v_in V v) in
                 mkVst V (v_mesh V v) s (mkLoc (l_line l) (l_np l) (l_nc l) u (l_cell l) (l_x l) (l_y l) (l_z l)))).
Proof.
  intros v. cbn zeta. assert (F := extract_follows _ ulong_scanner (l_uli (v_loc V v)) (v_in V v) ulong_consumes).
  destruct (extract ulong_scanner (l_uli (v_loc V v)) (v_in V v)) as [u s]. exact F.
Qed.

Lemma read_cell_keeps : keeps (read_cell V).
Proof.
  unfold read_cell. apply keeps_bind; [apply keeps_mod; apply uli_follows|]. intros _. apply keeps_get_bind. intros v v' y H. cbn zeta in H.
  unfold mbind at 1 in H. unfold mlift at 1 in H. destruct (read_member (l_uli (v_loc V v))) as [u| | | |]; try discriminate.
  unfold mbind at 1 in H. unfold check_size in H. destruct (max_elems 8 <? u); [discriminate|]. unfold mret at 1 in H.
  destruct (INT_MAX <? u); [discriminate|]. unfold mbind, mput in H. apply read_ids_keeps in H. exact H.
Qed.

Lemma read_cells_keeps : forall n i, keeps (read_cells V n i).
Proof.
  induction n; intros i; cbn [read_cells]; [apply keeps_ret|]. apply keeps_bind; [apply read_cell_keeps|]. intros _.
  apply keeps_bind; [apply keeps_get|]. intros v. apply keeps_bind; [apply keeps_mesh|]. intros. apply IHn.
Qed.
Lemma cells_keeps : keeps (cells_section V).
Proof.
  unfold cells_section. apply keeps_bind; [apply keeps_mod; intros; apply follows_refl|]. intros _.
  apply keeps_bind; [apply keeps_get|]. intros v. apply keeps_bind; [apply keeps_lift|]. intros n.
  apply keeps_bind; [apply keeps_size|]. intros _. apply keeps_bind; [apply read_cells_keeps|]. intros _.
  apply keeps_if; [apply keeps_lift|apply keeps_mesh].
Qed.
Lemma read_types_keeps : forall n, keeps (read_types V n).
Proof.
  induction n; cbn [read_types]; [apply keeps_ret|]. apply keeps_bind; [apply keeps_mod; apply uli_follows|]. intros _.
  apply keeps_bind; [apply keeps_get|]. intros v. apply keeps_bind; [apply keeps_lift|]. intros u. apply keeps_if; [apply keeps_lift|apply IHn].
Qed.
Lemma types_keeps : keeps (types_section V).
Proof.
  unfold types_section. apply keeps_bind; [apply keeps_mod; intros; apply follows_refl|]. intros _.
  apply keeps_bind; [apply keeps_get|]. intros v. apply keeps_bind; [apply keeps_lift|]. intros n.
  apply keeps_bind; [apply read_types_keeps|]. intros _. apply keeps_if; [apply keeps_lift|apply keeps_ret].
Qed.

(** The state after the getline of an iteration. *)
Definition after_line (v : vst) : vst :=
  let l := v_loc V v in let (line, s) := getline (l_line l) (v_in V v) in
  mkVst V (v_mesh V v) s (mkLoc line (l_np l) (l_nc l) (l_uli l) (l_cell l) (l_x l) (l_y l) (l_z l)).
Lemma after_line_in : forall v, v_in V (after_line v) = snd (getline (l_line (v_loc V v)) (v_in V v)) /\
  l_line (v_loc V (after_line v)) = fst (getline (l_line (v_loc V v)) (v_in V v)).
Proof. intros v. unfold after_line. cbn zeta. destruct (getline _ _). auto. Qed.

Lemma iteration_after : forall v v' b, mesh_iteration V num_scanner v = RRet v' b -> follows (v_in V (after_line v)) (v_in V v').
Proof.
  intros v v' b H. unfold mesh_iteration in H. unfold mbind at 1 in H. unfold mmod in H. fold (after_line v) in H.
  revert v' b H. generalize (after_line v). clear v. intros v v' b H. unfold mbind at 1 in H. unfold mget in H. cbn zeta in H.
  destruct (prefix_of _ _); [|destruct (prefix_of _ _); [|destruct (prefix_of _ _)]].
  - revert H. apply (keeps_bind _ _ _ _ points_keeps). intros. apply keeps_ret.
  - revert H. apply (keeps_bind _ _ _ _ cells_keeps). intros. apply keeps_ret.
  - revert H. apply (keeps_bind _ _ _ _ types_keeps). intros. apply keeps_ret.
  - revert H. apply keeps_ret.
Qed.

(** What the getline of an iteration does to a stream without eof. *)
Lemma getline_good : forall line s, is_eof s = false ->
  (is_fail s = false /\ ((List.length (is_rest (snd (getline line s))) < List.length (is_rest s))%nat \/ is_eof (snd (getline line s)) = true)) \/
  (stuck s /\ getline line s = (line, s)).
Proof.
  intros line [t e f] H. cbn in H. subst e. unfold getline, is_good. cbn [is_eof is_fail is_rest negb andb]. destruct f; cbn [negb].
  - right. split; [split; reflexivity|reflexivity].
  - left. split; [reflexivity|]. assert (L := cut_line_length t). destruct (cut_line t) as [l [r|]]; cbn in L |- *; [left; lia|auto].
Qed.

Lemma mesh_loop_bound : forall fuel v, (List.length (is_rest (v_in V v)) < fuel)%nat -> mesh_loop V num_scanner fuel v = RNoFuel ->
  (exists v', mesh_iteration V num_scanner v' = RNoFuel) \/
  exists n v', (n <= List.length (is_rest (v_in V v)))%nat /\ mesh_runs V num_scanner n v v' /\ stuck (v_in V v').
Proof.
  induction fuel as [|fuel IH]; intros v Hlt H; [lia|]. cbn [mesh_loop] in H. destruct (is_eof (v_in V v)) eqn:E; [discriminate|].
  destruct (getline_good (l_line (v_loc V v)) (v_in V v) E) as [(Hf & Hg)|(Hs & _)].
  2:{ right. exists 0%nat, v. split; [lia|]. split; [constructor|exact Hs]. }
  unfold mbind in H. destruct (mesh_iteration V num_scanner v) as [v1 b| | | |] eqn:Ei; try discriminate; [|left; eauto].
  destruct b; [discriminate|]. assert (F := iteration_after _ _ _ Ei). destruct (after_line_in v) as [A _]. rewrite A in F.
  destruct Hg as [Hg|Hg].
  - destruct F as [F _]. destruct (IH v1 ltac:(lia) H) as [?|(n & v' & H1 & H2 & H3)]; [auto|]. right. exists (S n), v'.
    split; [lia|]. split; [econstructor; eauto|exact H3].
  - destruct F as (_ & _ & F). assert (is_eof (v_in V v1) = true).
    { rewrite F; [exact Hg|]. unfold is_good. rewrite Hg. reflexivity. }
    destruct fuel; cbn [mesh_loop] in H; rewrite H0 in H; discriminate.
Qed.

(** ** The data part *)
Lemma read_data_follows : forall n s, follows s (snd (read_data num_scanner n s)).
Proof.
  induction n; intros s; cbn [read_data]; [apply follows_refl|].
  assert (F := extract_follows _ num_scanner (Some (nofZ O 0)) s Hnum). destruct (extract num_scanner (Some (nofZ O 0)) s) as [a s1].
  specialize (IHn s1). destruct (read_data num_scanner n s1) as [l s2]. cbn in *. eapply follows_trans; eauto.
Qed.

Definition after_line_b (b : bst V) : bst V :=
  let (line, s) := getline (b_line V b) (b_in V b) in mkBst V (b_body V b) s line (b_name V b) (b_np V b).
Lemma after_line_b_in : forall b, b_in V (after_line_b b) = snd (getline (b_line V b) (b_in V b)).
Proof. intros b. unfold after_line_b. destruct (getline _ _). auto. Qed.

Lemma scalars_follows : forall b b' u, scalars_section V num_scanner b = RRet b' u -> follows (b_in V b) (b_in V b').
Proof.
  intros b b' u H. unfold scalars_section in H. unfold mbind at 1 in H. unfold mmod in H.
  assert (F := getline_follows (b_line V b) (b_in V b)). destruct (getline (b_line V b) (b_in V b)) as [line s]. cbn [snd] in F.
  unfold mbind at 1 in H. unfold mget in H. unfold mbind at 1 in H. unfold mlift at 1 in H. cbn [b_np b_body b_in b_line b_name] in H.
  destruct (read_member (b_np V b)) as [n| | | |]; try discriminate. unfold mbind at 1 in H. unfold check_size in H.
  destruct (max_elems 8 <? n); [discriminate|]. unfold mret at 1 in H. destruct (INT_MAX <? n); [discriminate|].
  assert (F2 := read_data_follows (Z.to_nat n) s). destruct (read_data num_scanner (Z.to_nat n) s) as [data s2]. cbn [snd] in F2.
  unfold mbind, mlift, mput in H. destruct (pf_new _ _ _ _) as [p| | | |]; try discriminate. injection H as <- <-. cbn [b_in].
  eapply follows_trans; eauto.
Qed.

Lemma body_after : forall b b' u, body_iteration V num_scanner b = RRet b' u -> follows (b_in V (after_line_b b)) (b_in V b').
Proof.
  intros b b' u H. unfold body_iteration in H. unfold mbind at 1 in H. unfold mmod in H. fold (after_line_b b) in H.
  revert H. generalize (after_line_b b). clear b. intros b H. unfold mbind at 1 in H. unfold mget in H.
  destruct (prefix_of _ _); [|destruct (prefix_of _ _)].
  - unfold mput in H. injection H as <- <-. apply follows_refl.
  - eapply scalars_follows; eauto.
  - unfold mret in H. injection H as <- <-. apply follows_refl.
Qed.

(** An iteration never runs out of fuel by itself. *)
Definition fuelled {S A : Type} (a : M S A) : Prop := forall s, a s <> RNoFuel.

Lemma body_loop_bound : forall fuel b, (List.length (is_rest (b_in V b)) < fuel)%nat -> body_loop V num_scanner fuel b = RNoFuel ->
  (exists b', body_iteration V num_scanner b' = RNoFuel) \/
  exists n b', (n <= List.length (is_rest (b_in V b)))%nat /\ body_runs V num_scanner n b b' /\ stuck (b_in V b').
Proof.
  induction fuel as [|fuel IH]; intros v Hlt H; [lia|]. cbn [body_loop] in H. destruct (is_eof (b_in V v)) eqn:E; [discriminate|].
  destruct (getline_good (b_line V v) (b_in V v) E) as [(Hf & Hg)|(Hs & _)].
  2:{ right. exists 0%nat, v. split; [lia|]. split; [constructor|exact Hs]. }
  unfold mbind in H. destruct (body_iteration V num_scanner v) as [v1 []| | | |] eqn:Ei; try discriminate; [|left; eauto].
  assert (F := body_after _ _ _ Ei). rewrite (after_line_b_in v) in F. destruct Hg as [Hg|Hg].
  - destruct F as [F _]. destruct (IH v1 ltac:(lia) H) as [?|(n & v' & H1 & H2 & H3)]; [auto|]. right. exists (S n), v'.
    split; [lia|]. split; [econstructor; eauto|exact H3].
  - destruct F as (_ & _ & F). assert (is_eof (b_in V v1) = true).
    { rewrite F; [exact Hg|]. unfold is_good. rewrite Hg. reflexivity. }
    destruct fuel; cbn [body_loop] in H; rewrite H0 in H; discriminate.
Qed.

(** ** A stuck stream stays stuck *)
Lemma stuck_follows : forall s s', stuck s -> follows s s' -> stuck s'.
Proof. intros s s' [H1 H2] (_ & F1 & F2). split; [auto|]. rewrite F2; [exact H2|]. unfold is_good. rewrite H1, andb_false_r. reflexivity. Qed.

Lemma stuck_getline : forall line s, stuck s -> getline line s = (line, s).
Proof. intros line [t e f] [H1 H2]. cbn in *. subst. reflexivity. Qed.

Lemma body_stuck : forall fuel b b', stuck (b_in V b) -> body_loop V num_scanner fuel b <> RRet b' tt.
Proof.
  induction fuel as [|fuel IH]; intros b b' Hs; cbn [body_loop]; rewrite (proj2 Hs); [discriminate|].
  unfold mbind. destruct (body_iteration V num_scanner b) as [b1 []| | | |] eqn:E; try discriminate. apply IH.
  apply body_after in E. rewrite after_line_b_in, (stuck_getline _ _ Hs) in E. cbn [snd] in E. eapply stuck_follows; eauto.
Qed.

Lemma body_idle : forall fuel b, stuck (b_in V b) -> prefix_of (txt "POINT_DATA") (b_line V b) = false ->
  prefix_of (txt "SCALARS") (b_line V b) = false -> body_loop V num_scanner fuel b = RNoFuel.
Proof.
  induction fuel as [|fuel IH]; intros b Hs H1 H2; cbn [body_loop]; rewrite (proj2 Hs); [reflexivity|].
  unfold mbind at 1. unfold body_iteration. unfold mbind at 1. unfold mmod. rewrite (stuck_getline _ _ Hs). unfold mbind, mget.
  cbn [b_line b_in b_body b_name b_np]. rewrite H1, H2. unfold mret. apply IH; auto.
Qed.

Lemma mesh_idle : forall fuel v, stuck (v_in V v) -> prefix_of (txt "POINTS") (l_line (v_loc V v)) = false ->
  prefix_of (txt "CELLS") (l_line (v_loc V v)) = false -> prefix_of (txt "CELL_TYPES") (l_line (v_loc V v)) = false ->
  mesh_loop V num_scanner fuel v = RNoFuel.
Proof.
  induction fuel as [|fuel IH]; intros v Hs H1 H2 H3; cbn [mesh_loop]; rewrite (proj2 Hs); [reflexivity|].
  unfold mbind at 1. unfold mesh_iteration. unfold mbind at 1. unfold mmod. cbn zeta. rewrite (stuck_getline _ _ Hs). unfold mbind, mget.
  cbn [v_loc l_line]. rewrite H1, H2, H3. unfold mret. cbn iota. apply IH; auto.
Qed.

(** The current line is not changed by the sections. *)
Definition keeps_line {A : Type} (a : M vst A) : Prop := forall v v' x, a v = RRet v' x -> l_line (v_loc V v') = l_line (v_loc V v).
Lemma kl_ret : forall (A : Type) (x : A), keeps_line (mret x).
Proof. intros A x v v' y H. injection H as <- <-. reflexivity. Qed.
Lemma kl_lift : forall (A : Type) (o : outcome A), keeps_line (mlift o).
Proof. intros A o v v' y H. unfold mlift in H. destruct o; try discriminate. injection H as <- <-. reflexivity. Qed.
Lemma kl_get : keeps_line mget.
Proof. intros v v' y H. injection H as <- <-. reflexivity. Qed.
Lemma kl_bind : forall (A B : Type) (a : M vst A) (k : A -> M vst B), keeps_line a -> (forall x, keeps_line (k x)) -> keeps_line (mbind a k).
Proof.
  intros A B a k Ha Hk v v' y H. unfold mbind in H. destruct (a v) as [v1 x| | | |] eqn:E; try discriminate.
  rewrite (Hk _ _ _ _ H). eapply Ha; eauto.
Qed.
Lemma kl_get_bind : forall (B : Type) (k : vst -> M vst B),
  (forall v v' y, k v v = RRet v' y -> l_line (v_loc V v') = l_line (v_loc V v)) -> keeps_line (mbind mget k).
Proof. intros B k Hk v v' y H. unfold mbind, mget in H. eauto. Qed.
Lemma kl_mod : forall f, (forall v, l_line (v_loc V (f v)) = l_line (v_loc V v)) -> keeps_line (mmod f).
Proof. intros f Hf v v' y H. unfold mmod in H. injection H as <- <-. auto. Qed.
Lemma kl_mesh : forall (A : Type) (a : M (mesh O (vk_kind V)) A), keeps_line (on_mesh V a).
Proof. intros A a v v' y H. unfold on_mesh in H. destruct (a (v_mesh V v)); try discriminate. injection H as <- <-. reflexivity. Qed.
Lemma kl_size : forall b n, keeps_line (check_size b n).
Proof. intros b n. unfold check_size. destruct (_ <? _); [apply kl_lift|apply kl_ret]. Qed.
Lemma kl_if : forall (A : Type) (c : bool) (a b : M vst A), keeps_line a -> keeps_line b -> keeps_line (if c then a else b).
Proof. intros A [] a b Ha Hb; auto. Qed.

Lemma read_points_kl : forall n, keeps_line (read_points V num_scanner n).
Proof.
  induction n; cbn [read_points]; [apply kl_ret|]. apply kl_bind.
  - intros v v' p H. unfold read_point in H. destruct (extract _ _ _) as [x s1]. destruct (extract _ _ _) as [y s2].
    destruct (extract _ _ _) as [z s3]. unfold mlift in H. destruct (vk_point V x y z); try discriminate. injection H as <- <-. reflexivity.
  - intros p. apply kl_bind; [apply IHn|]. intros. apply kl_ret.
Qed.
Lemma points_kl : keeps_line (points_section V num_scanner).
Proof.
  unfold points_section. apply kl_bind; [apply kl_mod; reflexivity|]. intros _.
  apply kl_bind; [apply kl_get|]. intros v. apply kl_bind; [apply kl_lift|]. intros n.
  apply kl_bind; [apply kl_size|]. intros _. apply kl_if; [apply kl_lift|].
  apply kl_bind; [apply read_points_kl|]. intros. apply kl_mesh.
Qed.
Lemma read_ids_kl : forall n j, keeps_line (read_ids V n j).
Proof.
  induction n; intros j; cbn [read_ids]; [apply kl_ret|]. apply kl_get_bind. intros v v' y H.
  unfold mbind at 1 in H. unfold mlift at 1 in H. destruct (vget (l_cell (v_loc V v)) j) as [old| | | |]; try discriminate.
  destruct (extract ulong_scanner (Some old) (v_in V v)) as [a s].
  unfold mbind, mlift, mput in H. destruct (read_member a) as [a'| | | |]; try discriminate.
  destruct (vset (l_cell (v_loc V v)) j a') as [c| | | |]; try discriminate. apply IHn in H. exact H.
Qed.
Lemma read_cells_kl : forall n i, keeps_line (read_cells V n i).
Proof.
  induction n; intros i; cbn [read_cells]; [apply kl_ret|]. apply kl_bind.
  - unfold read_cell. apply kl_bind; [apply kl_mod; intros; cbn zeta; destruct (extract _ _ _); reflexivity|]. intros _.
    apply kl_get_bind. intros v v' y H. cbn zeta in H.
    unfold mbind at 1 in H. unfold mlift at 1 in H. destruct (read_member (l_uli (v_loc V v))) as [u| | | |]; try discriminate.
    unfold mbind at 1 in H. unfold check_size in H. destruct (max_elems 8 <? u); [discriminate|]. unfold mret at 1 in H.
    destruct (INT_MAX <? u); [discriminate|]. unfold mbind, mput in H. apply read_ids_kl in H. exact H.
  - intros _. apply kl_bind; [apply kl_get|]. intros v. apply kl_bind; [apply kl_mesh|]. intros. apply IHn.
Qed.
Lemma cells_kl : keeps_line (cells_section V).
Proof.
  unfold cells_section. apply kl_bind; [apply kl_mod; reflexivity|]. intros _.
  apply kl_bind; [apply kl_get|]. intros v. apply kl_bind; [apply kl_lift|]. intros n.
  apply kl_bind; [apply kl_size|]. intros _. apply kl_bind; [apply read_cells_kl|]. intros _. apply kl_if; [apply kl_lift|apply kl_mesh].
Qed.

Lemma mesh_stuck : forall fuel v v', stuck (v_in V v) ->
  prefix_of (txt "CELL_TYPES") (l_line (v_loc V v)) = false -> mesh_loop V num_scanner fuel v <> RRet v' tt.
Proof.
  induction fuel as [|fuel IH]; intros v v' Hs Hl; cbn [mesh_loop]; rewrite (proj2 Hs); [discriminate|].
  unfold mbind at 1. destruct (mesh_iteration V num_scanner v) as [v1 b| | | |] eqn:E; try discriminate.
  assert (F := iteration_after _ _ _ E). destruct (after_line_in v) as [A B]. rewrite A, (stuck_getline _ _ Hs) in F. cbn [snd] in F.
  rewrite (stuck_getline _ _ Hs) in B. cbn [fst] in B.
  unfold mesh_iteration in E. unfold mbind at 1 in E. unfold mmod in E. fold (after_line v) in E.
  unfold mbind at 1 in E. unfold mget in E. cbn zeta in E. rewrite B, Hl in E.
  assert (G : l_line (v_loc V v1) = l_line (v_loc V (after_line v)) /\ b = false).
  { destruct (prefix_of (txt "POINTS") _); [|destruct (prefix_of (txt "CELLS") _)].
    - unfold mbind in E. destruct (points_section _ _ _) as [v2 ?| | | |] eqn:Ep; try discriminate. injection E as <- <-. split; auto. eapply points_kl; eauto.
    - unfold mbind in E. destruct (cells_section _ _) as [v2 ?| | | |] eqn:Ep; try discriminate. injection E as <- <-. split; auto. eapply cells_kl; eauto.
    - injection E as <- <-. auto. }
  destruct G as [G ->]. apply IH; [eapply stuck_follows; eauto|]. rewrite G, B. exact Hl.
Qed.

(** ** Iterations that do not run out of fuel by themselves *)
Lemma fu_bind : forall (S A B : Type) (a : M S A) (k : A -> M S B), fuelled a -> (forall x, fuelled (k x)) -> fuelled (mbind a k).
Proof.
  intros S A B a k Ha Hk s. unfold mbind. specialize (Ha s). destruct (a s); try discriminate; [apply Hk|congruence].
Qed.
Lemma fu_lift : forall (S A : Type) (o : outcome A), o <> NoFuel -> fuelled (S := S) (mlift o).
Proof. intros S A o H s. unfold mlift. destruct o; try discriminate. congruence. Qed.
Lemma fu_ret : forall (S A : Type) (a : A), fuelled (S := S) (mret a).
Proof. intros S A a s. discriminate. Qed.
Lemma fu_size : forall (S : Type) b n, fuelled (S := S) (check_size b n).
Proof. intros S b n s. unfold check_size. destruct (_ <? _); discriminate. Qed.
Lemma fu_mesh : forall (A : Type) (a : M (mesh O (vk_kind V)) A), fuelled a -> fuelled (on_mesh V a).
Proof. intros A a Ha v. unfold on_mesh. specialize (Ha (v_mesh V v)). destruct (a (v_mesh V v)); try discriminate. congruence. Qed.

Lemma member_fu : forall (A : Type) (x : option A), read_member x <> NoFuel.
Proof. intros A [x|]; discriminate. Qed.
Lemma vget_fu : forall (A : Type) (l : list A) i, vget l i <> NoFuel.
Proof. intros A l i. unfold vget. destruct (0 <=? i); [|discriminate]. destruct (nth_error _ _); discriminate. Qed.
Lemma obind_fu : forall (A B : Type) (o : outcome A) (k : A -> outcome B), o <> NoFuel -> (forall a, k a <> NoFuel) -> obind o k <> NoFuel.
Proof. intros A B o k Ho Hk. unfold obind. destruct o; try discriminate; auto. Qed.
Lemma omap_fu : forall (A B : Type) (f : A -> outcome B) l, (forall a, f a <> NoFuel) -> omap f l <> NoFuel.
Proof.
  intros A B f l Hf. induction l; cbn [omap]; [discriminate|]. apply obind_fu; [apply Hf|]. intros. apply obind_fu; [exact IHl|]. discriminate.
Qed.
Lemma ofold_fu : forall (A B : Type) (f : B -> A -> outcome B) l a, (forall a b, f a b <> NoFuel) -> ofold f l a <> NoFuel.
Proof.
  intros A B f l. induction l; intros x Hf; cbn [ofold]; [discriminate|]. apply obind_fu; [apply Hf|]. intros. apply IHl, Hf.
Qed.
Lemma cint_fu : forall z, cint z <> NoFuel.
Proof. intros z. unfold cint. destruct (in_int z); discriminate. Qed.

Lemma volume_fu : forall dim, calc_volume dim <> NoFuel.
Proof. intros [|d dim]; unfold calc_volume; [discriminate|]. apply ofold_fu. intros. apply cint_fu. Qed.
Lemma unroll_fu : forall dim, unroll_rec dim <> NoFuel.
Proof.
  induction dim as [|d [|e dim] IH]; cbn [unroll_rec]; try discriminate. apply obind_fu; [exact IH|]. intros [|u us]; [discriminate|].
  apply obind_fu; [apply cint_fu|discriminate].
Qed.
Lemma make_fu : forall (A : Type) (d : A) dim, nd_make d dim <> NoFuel.
Proof.
  intros A d dim. unfold nd_make. assert (F : fuelled (nd_resize d dim)).
  { unfold nd_resize. apply fu_bind; [discriminate|]. intros s. apply fu_bind; [apply fu_lift, volume_fu|]. intros vol.
    apply fu_bind; [discriminate|]. intros _. apply fu_bind; [destruct (vol <? 0); discriminate|]. intros _.
    unfold generate_unroll. apply fu_bind; [discriminate|]. intros s'. apply fu_bind; [apply fu_lift, unroll_fu|]. discriminate. }
  specialize (F nd_empty). destruct (nd_resize d dim nd_empty); try discriminate. congruence.
Qed.
Lemma max_loop_fu : forall mn inc n, bin_max_loop (O := O) mn inc n <> NoFuel.
Proof.
  induction mn; intros inc n; cbn [bin_max_loop]; [discriminate|]. destruct inc; [discriminate|]. destruct n; [discriminate|].
  apply obind_fu; [apply IHmn|discriminate].
Qed.
Lemma mesh_points_fu : forall pts, fuelled (mesh_points (K := vk_kind V) pts).
Proof.
  intros pts. unfold mesh_points. apply fu_bind; [discriminate|]. intros _. apply fu_bind.
  - apply fu_lift, omap_fu. intros j. unfold axis_grid. destruct (existsb _ _); [discriminate|]. destruct (axis_sort _); [discriminate|].
    cbn zeta. apply obind_fu; [apply cint_fu|]. intros. apply obind_fu; [apply cint_fu|]. discriminate.
  - intros ax. apply fu_bind; [|discriminate]. apply fu_lift. unfold bin_make. apply obind_fu; [apply max_loop_fu|]. intros.
    apply obind_fu; [apply make_fu|]. discriminate.
Qed.

Hypothesis Hpoint : forall x y z, vk_point V x y z <> NoFuel.

Lemma read_points_fu : forall n, fuelled (read_points V num_scanner n).
Proof.
  induction n; cbn [read_points]; [discriminate|]. apply fu_bind.
  - intros v. unfold read_point. destruct (extract _ _ _) as [x s1]. destruct (extract _ _ _) as [y s2].
    destruct (extract _ _ _) as [z s3]. apply fu_lift, Hpoint.
  - intros p. apply fu_bind; [exact IHn|]. discriminate.
Qed.
Lemma points_fu : fuelled (points_section V num_scanner).
Proof.
  unfold points_section. apply fu_bind; [discriminate|]. intros _. apply fu_bind; [discriminate|]. intros v.
  apply fu_bind; [apply fu_lift, member_fu|]. intros n. apply fu_bind; [apply fu_size|]. intros _.
  destruct (INT_MAX <? n); [discriminate|]. apply fu_bind; [apply read_points_fu|]. intros. apply fu_mesh, mesh_points_fu.
Qed.
Lemma types_fu : fuelled (types_section V).
Proof.
  unfold types_section. apply fu_bind; [discriminate|]. intros _. apply fu_bind; [discriminate|]. intros v.
  apply fu_bind; [apply fu_lift, member_fu|]. intros n. apply fu_bind; [|intros _; destruct (INT_MAX <? n); discriminate].
  generalize (Z.to_nat (Z.min n (INT_MAX + 1))). clear n v. induction n; cbn [read_types]; [discriminate|].
  apply fu_bind; [discriminate|]. intros _. apply fu_bind; [discriminate|]. intros v. apply fu_bind; [apply fu_lift, member_fu|]. intros u.
  destruct (_ && _); [discriminate|exact IHn].
Qed.

(** Only the cells can: the range of bins of an interpolator whose corners are not ordered. *)
Lemma iteration_fu : forall v, mesh_iteration V num_scanner v = RNoFuel ->
  prefix_of (txt "CELLS") (l_line (v_loc V (after_line v))) = true.
Proof.
  intros v E. unfold mesh_iteration in E. unfold mbind at 1 in E. unfold mmod in E. fold (after_line v) in E.
  unfold mbind at 1 in E. unfold mget in E. cbn zeta in E.
  destruct (prefix_of (txt "POINTS") _); [|destruct (prefix_of (txt "CELLS") _); [reflexivity|destruct (prefix_of (txt "CELL_TYPES") _)]].
  - exfalso. revert E. apply fu_bind; [apply points_fu|discriminate].
  - exfalso. revert E. apply fu_bind; [apply types_fu|discriminate].
  - discriminate.
Qed.

Lemma body_iteration_fu : fuelled (body_iteration V num_scanner).
Proof.
  unfold body_iteration. apply fu_bind; [discriminate|]. intros _. apply fu_bind; [discriminate|]. intros b.
  destruct (prefix_of _ _); [discriminate|]. destruct (prefix_of _ _); [|discriminate]. unfold scalars_section.
  apply fu_bind; [discriminate|]. intros _. apply fu_bind; [discriminate|]. intros b1. apply fu_bind; [apply fu_lift, member_fu|]. intros n.
  apply fu_bind; [apply fu_size|]. intros _. destruct (INT_MAX <? n); [discriminate|]. destruct (read_data _ _ _) as [data s].
  apply fu_bind; [|discriminate]. apply fu_lift. unfold pf_new. apply obind_fu; [|discriminate]. unfold mesh_max_bin_size, bin_max_size.
  apply ofold_fu. intros. apply obind_fu; [apply vget_fu|discriminate].
Qed.

End Loops.
