(** Field evaluation in an arbitrary arithmetic: C21, C23, C24. *)
From Coq Require Import ZArith List Bool Lia ZifyBool String.
From Verif Require Import Model.Outcome Model.Num Model.PNDArray Model.Bin Model.PSimple Model.Interpolator Model.Mesh
  Model.PField.
From Verif Require Import Spec.Tensor Spec.NDHistory Spec.Grid Spec.Funcs Spec.Fields.
From Verif Require Import Proofs.OutcomeP Proofs.PNDArrayP Proofs.BinP Proofs.BinLaterP Proofs.FuncObjP Proofs.MeshP.
Import ListNotations.
Local Open Scope Z_scope.

(** ** Vectors *)

Lemma vset_mid : forall (A : Type) (l1 l2 : list A) x a,
  vset (l1 ++ x :: l2) (Z.of_nat (List.length l1)) a = Ok (l1 ++ a :: l2).
Proof.
  intros A l1 l2 x a. rewrite vset_ok by (rewrite app_length; simpl; lia). f_equal. rewrite Nat2Z.id.
  induction l1 as [|y l1 IH]; simpl; [reflexivity|f_equal; auto].
Qed.

Lemma vget_mid : forall (A : Type) (l1 l2 : list A) x, vget (l1 ++ x :: l2) (Z.of_nat (List.length l1)) = Ok x.
Proof.
  intros A l1 l2 x. apply vget_some. rewrite Nat2Z.id. split; [lia|].
  rewrite nth_error_app2, Nat.sub_diag by lia. reflexivity.
Qed.

Lemma vget_lset_in : forall (A : Type) (l : list A) i a, 0 <= i < Z.of_nat (List.length l) ->
  vget (lset l (Z.to_nat i) a) i = Ok a.
Proof.
  intros A l i a H. destruct (proj2 (vget_ok_iff _ l i) H) as (b & Hb). eapply vget_lset_same; eauto.
Qed.

Section Basis.
Context {O : NumOps} {K : kind O}.
Local Notation ip := (interp O (kpoint K)).
Implicit Types (f : ip -> outcome (num O)) (its : list ip).

(** The weights the inner loop writes. *)
Definition weigh f (elem : Z) (it : ip) : outcome (num O) :=
  if it_elem it =? elem then f it else Ok (nofZ O 0).

Lemma fill_ok : forall f elem its ws, Forall2 (fun it w => weigh f elem it = Ok w) its ws ->
  forall b0 n0 bs ns, List.length b0 = List.length n0 -> (List.length its <= List.length bs)%nat ->
  (List.length its <= List.length ns)%nat ->
  fill f elem (Z.of_nat (List.length b0)) its (mkScratch (b0 ++ bs) (n0 ++ ns)) =
  Ok (mkScratch (b0 ++ ws ++ skipn (List.length its) bs) (n0 ++ map it_node its ++ skipn (List.length its) ns)).
Proof.
  intros f elem its ws H. induction H as [|it w its ws Hw H IH]; intros b0 n0 bs ns Hl Hb Hn; [reflexivity|].
  destruct bs as [|b bs]; simpl in Hb; [lia|]. destruct ns as [|n ns]; simpl in Hn; [lia|].
  cbn [fill sc_bf sc_ni]. unfold weigh in Hw. rewrite Hw. cbn [obind].
  rewrite vset_mid. cbn [obind]. rewrite Hl. rewrite vset_mid. cbn [obind].
  specialize (IH (b0 ++ [w]) (n0 ++ [it_node it]) bs ns). rewrite !app_length in IH. simpl in IH.
  replace (Z.of_nat (List.length n0) + 1) with (Z.of_nat (List.length b0 + 1)) by lia.
  change (b0 ++ w :: bs) with (b0 ++ [w] ++ bs). change (n0 ++ it_node it :: ns) with (n0 ++ [it_node it] ++ ns).
  rewrite (app_assoc b0), (app_assoc n0). rewrite IH by lia. simpl. rewrite <- !app_assoc. reflexivity.
Qed.

(** [m'] is [m] up to the index vector of its bin. *)
Definition same_mesh (m m' : mesh O K) : Prop :=
  me_min m' = me_min m /\ me_max m' = me_max m /\ me_node m' = me_node m /\ me_interp m' = me_interp m /\
  same_bin (me_bin m) (me_bin m').

Lemma same_mesh_refl : forall m, same_mesh m m.
Proof. intros m. repeat split; auto. apply same_bin_refl. Qed.

Lemma same_mesh_trans : forall m1 m2 m3, same_mesh m1 m2 -> same_mesh m2 m3 -> same_mesh m1 m3.
Proof.
  intros m1 m2 m3 (A1 & A2 & A3 & A4 & A5) (B1 & B2 & B3 & B4 & B5).
  repeat split; try congruence. eapply same_bin_trans; eauto.
Qed.

Lemma on_bin_cases : forall (c : list (num O)) (m : mesh O K),
  match view (me_bin m) c with
  | Ok l => exists m', on_bin (bin_contents c) m = RRet m' l /\ same_mesh m m'
  | Throw e => exists m', on_bin (bin_contents c) m = RThrow m' e /\ same_mesh m m'
  | Exit => on_bin (bin_contents c) m = RExit
  | UB r => on_bin (bin_contents c) m = RUB r
  | NoFuel => on_bin (bin_contents c) m = RNoFuel
  end.
Proof.
  intros c m. unfold view, on_bin. destruct (bin_contents c (me_bin m)) as [b l|b e| |r|] eqn:E; simpl; auto;
    eexists; (split; [reflexivity|]); repeat split; auto; eapply contents_after; [left|right]; eauto.
Qed.

(** basis_functions and its variants, in terms of the contents [its] of the bin. *)
Lemma basis_cases : forall f c m sc,
  match view (me_bin m) (kcoords K c) with
  | Ok its =>
      Z.of_nat (List.length its) <= INT_MAX ->
      exists m', same_mesh m m' /\
        match find (fun it => it_range it c) its with
        | Some it0 => forall sc', fill f (it_elem it0) 0 its sc = Ok sc' ->
            mesh_basis f c (m, sc) = RRet (m', sc') (Z.of_nat (List.length its))
        | None => mesh_basis f c (m, sc) = RRet (m', sc) (Z.of_nat (List.length its))
        end
  | Throw e => exists m', mesh_basis f c (m, sc) = RThrow (m', sc) e /\ same_mesh m m'
  | Exit => mesh_basis f c (m, sc) = RExit
  | UB r => mesh_basis f c (m, sc) = RUB r
  | NoFuel => mesh_basis f c (m, sc) = RNoFuel
  end.
Proof.
  intros f c m sc. pose proof (on_bin_cases (kcoords K c) m) as H. unfold mesh_basis. cbn [fst snd].
  destruct (view (me_bin m) (kcoords K c)) as [its|e| |r|].
  - intros Hi. destruct H as (m' & -> & Hm). exists m'. split; [exact Hm|].
    rewrite cint_ok by (unfold INT_MIN; lia).
    destruct (find _ its) as [it0|]; [|reflexivity]. intros sc' ->. reflexivity.
  - destruct H as (m' & -> & Hm). exists m'. auto.
  - rewrite H. auto.
  - rewrite H. auto.
  - rewrite H. auto.
Qed.

End Basis.

(** ** Fields *)
Section Field.
Context {O : NumOps} {K : kind O} {F : FieldOps O}.
Local Notation ip := (interp O (kpoint K)).
Local Notation state := (mesh O K * pfield F)%type.

(** The quantity an interpolator is asked for. *)
Definition ask (q : quantity) (c : kpoint K) (it : ip) : outcome (num O) :=
  match q with
  | QVal => Ok (it_val it c)
  | QGrad i => it_grad it c i
  | QHess i j => it_hess it c i j
  end.

(** Where the result goes. *)
Definition put (q : quantity) : ft F -> pfield F -> outcome (pfield F) :=
  match q with
  | QVal => pf_set_val
  | QGrad i => pf_set_grad i
  | QHess i j => pf_set_hess i j
  end.

Lemma field_eval_with : forall q c, field_eval q c = pf_eval_with (K:=K) (F:=F) (ask q c) (put q) c.
Proof. intros [|i|i j] c; reflexivity. Qed.

(** Sum of weighted nodal data. *)
Definition wsum (zero : ft F) (l : list (num O * ft F)) : ft F :=
  fold_left (fun acc x => ft_add F acc (ft_scale F (fst x) (snd x))) l zero.

Lemma sum_ok : forall (p : pfield F) ws ns vs bs rs, sc_bf (pf_sc p) = ws ++ bs -> sc_ni (pf_sc p) = ns ++ rs ->
  List.length ws = List.length ns -> Forall2 (fun n v => vget (pf_field p) n = Ok v) ns vs ->
  pf_sum (Z.of_nat (List.length ns)) p = Ok (wsum (pf_zero p) (combine ws vs)).
Proof.
  intros p ws ns vs bs rs Hb Hn Hl Hv. unfold pf_sum. rewrite Nat2Z.id. rewrite Hb, Hn. unfold wsum. generalize (pf_zero p) as z.
  assert (G : forall w0 n0 z, List.length w0 = List.length n0 ->
    ofold (fun acc i =>
      let* b := vget (w0 ++ ws ++ bs) i in
      let* n := vget (n0 ++ ns ++ rs) i in
      let* v := vget (pf_field p) n in
      Ok (ft_add F acc (ft_scale F b v))) (map Z.of_nat (seq (List.length w0) (List.length ns))) z =
    Ok (fold_left (fun acc x => ft_add F acc (ft_scale F (fst x) (snd x))) (combine ws vs) z)).
  { clear Hb Hn. revert ws Hl. induction Hv as [|n v ns vs Hv Hvs IH]; intros ws Hl w0 n0 z H0.
    - destruct ws; [reflexivity|discriminate].
    - destruct ws as [|w ws]; [discriminate|]. simpl in Hl.
      cbn [List.length seq map ofold]. cbn [app].
      rewrite vget_mid. cbn [obind]. rewrite H0 at 1. rewrite vget_mid. cbn [obind]. rewrite Hv. cbn [obind].
      specialize (IH ws ltac:(lia) (w0 ++ [w]) (n0 ++ [n])). rewrite !app_length in IH. simpl in IH.
      rewrite <- !app_assoc in IH. simpl in IH. rewrite Nat.add_1_r in IH. rewrite IH by lia. reflexivity. }
  intros z. apply (G [] [] z eq_refl).
Qed.

(** ** Invariant of a field and its mesh *)

(** Everything a lookup can return is harmless: the node numbers are in the data, the scratch vectors are long enough, the
    interpolators answer. *)
Record field_ok (m0 : mesh O K) (data : list (ft F)) (zero : ft F) (s : state) : Prop := mkFieldOk {
  fk_mesh : same_mesh m0 (fst s);
  fk_field : pf_field (snd s) = data;
  fk_zero : pf_zero (snd s) = zero;
  fk_grad : List.length (pf_grad (snd s)) = kdim K;
  fk_hess : Forall (fun row => List.length row = kdim K) (pf_hess (snd s)) /\ List.length (pf_hess (snd s)) = kdim K;
  fk_bf : forall t l, nd_at (bin_item (me_bin m0)) t = Ok l -> (List.length l <= List.length (sc_bf (pf_sc (snd s))))%nat;
  fk_ni : forall t l, nd_at (bin_item (me_bin m0)) t = Ok l -> (List.length l <= List.length (sc_ni (pf_sc (snd s))))%nat;
  fk_nodes : Forall (fun n => 0 <= n < Z.of_nat (List.length data) \/ n = 0) (sc_ni (pf_sc (snd s)))
}.

(** The mesh is usable with data of length [n]. *)
Record mesh_ok (m0 : mesh O K) (n : nat) : Prop := mkMeshOk {
  mk_bin : bin_good (me_bin m0);
  mk_size : forall t l, nd_at (bin_item (me_bin m0)) t = Ok l -> Z.of_nat (List.length l) <= INT_MAX;
  mk_node : holds_only (fun it => 0 <= it_node it < Z.of_nat n) (me_bin m0);
  mk_ask : holds_only (fun it => forall q c, on_axes (kdim K) q -> exists w, ask q c it = Ok w) (me_bin m0)
}.

Lemma weigh_total : forall q c elem its, Forall (fun it : ip => forall q c, on_axes (kdim K) q -> exists w, ask q c it = Ok w) its ->
  on_axes (kdim K) q -> exists ws, Forall2 (fun it w => weigh (ask q c) elem it = Ok w) its ws.
Proof.
  intros q c elem its H Hq. induction H as [|it its Hit H (ws & IH)]; [exists []; constructor|].
  unfold weigh. destruct (it_elem it =? elem) eqn:E.
  - destruct (Hit q c Hq) as (w & Hw). exists (w :: ws). constructor; [rewrite E; auto|exact IH].
  - exists (nofZ O 0 :: ws). constructor; [rewrite E; auto|exact IH].
Qed.

Lemma data_total : forall (data : list (ft F)) ns, Forall (fun n => 0 <= n < Z.of_nat (List.length data)) ns ->
  exists vs, Forall2 (fun n v => vget data n = Ok v) ns vs.
Proof.
  intros data ns H. induction H as [|n ns Hn H (vs & IH)]; [exists []; constructor|].
  destruct (proj2 (vget_ok_iff _ data n) Hn) as (v & Hv). exists (v :: vs). constructor; auto.
Qed.

(** What an evaluation computes from the contents of the bin: the weighted sum, with fresh weights if an
    interpolator claims the point and the weights left in the scratch vectors otherwise. *)
Definition result_is (q : quantity) (c : kpoint K) (its : list ip) (p : pfield F) (a : ft F) : Prop :=
  match find (fun it => it_range it c) its with
  | Some it0 => exists ws vs, Forall2 (fun it w => weigh (ask q c) (it_elem it0) it = Ok w) its ws /\
      Forall2 (fun it v => vget (pf_field p) (it_node it) = Ok v) its vs /\
      a = wsum (pf_zero p) (combine ws vs)
  | None => exists vs, Forall2 (fun n v => vget (pf_field p) n = Ok v) (firstn (List.length its) (sc_ni (pf_sc p))) vs /\
      a = wsum (pf_zero p) (combine (firstn (List.length its) (sc_bf (pf_sc p))) vs)
  end.

Lemma result_is_fun : forall q c its p p' a a', pf_field p' = pf_field p -> pf_zero p' = pf_zero p ->
  (find (fun it => it_range it c) its = None -> sc_bf (pf_sc p') = sc_bf (pf_sc p) /\ sc_ni (pf_sc p') = sc_ni (pf_sc p)) ->
  result_is q c its p a -> result_is q c its p' a' -> a = a'.
Proof.
  assert (G : forall (X Y : Type) (R : X -> outcome Y) l ys ys', Forall2 (fun x y => R x = Ok y) l ys ->
            Forall2 (fun x y => R x = Ok y) l ys' -> ys = ys').
  { intros X Y R l ys ys' H. revert ys'. induction H as [|x y l ys H0 H IH]; intros ys' H'; inversion H'; subst; auto.
    f_equal; [congruence|auto]. }
  intros q c its p p' a a' Hf Hz Hs H H'. unfold result_is in *. destruct (find _ its) as [it0|].
  - destruct H as (ws & vs & H1 & H2 & ->), H' as (ws' & vs' & H1' & H2' & ->). rewrite Hf, Hz in *.
    rewrite (G _ _ _ _ _ _ H1 H1'). rewrite (G _ _ (fun it => vget (pf_field p) (it_node it)) _ _ _ H2 H2'). reflexivity.
  - destruct (Hs eq_refl) as [E1 E2]. rewrite E1, E2, Hf, Hz in *.
    destruct H as (vs & H2 & ->), H' as (vs' & H2' & ->).
    rewrite (G _ _ (fun n => vget (pf_field p) n) _ _ _ H2 H2'). reflexivity.
Qed.

Lemma put_ok : forall q a (p : pfield F), on_axes (kdim K) q -> List.length (pf_grad p) = kdim K ->
  Forall (fun row => List.length row = kdim K) (pf_hess p) /\ List.length (pf_hess p) = kdim K ->
  exists p', put q a p = Ok p' /\ pf_name p' = pf_name p /\ pf_field p' = pf_field p /\ pf_zero p' = pf_zero p /\ pf_sc p' = pf_sc p /\
    List.length (pf_grad p') = kdim K /\
    (Forall (fun row => List.length row = kdim K) (pf_hess p') /\ List.length (pf_hess p') = kdim K) /\
    field_stored p' q = Ok a /\ forall q', q' <> q -> field_stored p' q' = field_stored p q'.
Proof.
  intros [|i|i j] a p Hq Hg [Hh1 Hh2]; simpl in Hq.
  - eexists. split; [reflexivity|]. simpl. repeat (split; auto). intros [|i|i j] Hne; try reflexivity. congruence.
  - unfold put, pf_set_grad. rewrite vset_ok by lia. cbn [obind]. eexists. split; [reflexivity|]. simpl.
    rewrite length_lset. repeat (split; auto).
    + unfold pf_get_grad. simpl. apply vget_lset_in. lia.
    + intros [|i'|i' j'] Hne; try reflexivity. unfold pf_get_grad. simpl. apply vget_lset_other; [lia|congruence].
  - unfold put, pf_set_hess. destruct (proj2 (vget_ok_iff _ (pf_hess p) i)) as (row & Hrow); [lia|].
    rewrite Hrow. cbn [obind].
    assert (Hr : List.length row = kdim K).
    { apply vget_some in Hrow. destruct Hrow as [_ Hrow]. apply nth_error_In in Hrow.
      rewrite Forall_forall in Hh1. auto. }
    rewrite vset_ok by lia. cbn [obind]. rewrite vset_ok by lia. cbn [obind]. eexists. split; [reflexivity|]. simpl.
    rewrite length_lset. repeat (split; auto).
    + apply Forall_forall. intros r Hin. apply in_lset in Hin. destruct Hin as [->|Hin].
      * rewrite length_lset. auto.
      * rewrite Forall_forall in Hh1. auto.
    + simpl. unfold pf_get_hess. simpl. rewrite vget_lset_in by lia. cbn [obind]. apply vget_lset_in. lia.
    + intros [|i'|i' j'] Hne; try reflexivity. simpl. unfold pf_get_hess. simpl.
      destruct (Z.eq_dec i' i) as [->|Hni].
      * rewrite vget_lset_in by lia. rewrite Hrow. cbn [obind]. apply vget_lset_other; [lia|congruence].
      * rewrite vget_lset_other by (auto; lia). reflexivity.
Qed.

Lemma Forall2_map_l : forall (X Y Z' : Type) (R : Y -> Z' -> Prop) (g : X -> Y) l zs,
  Forall2 (fun x z => R (g x) z) l zs <-> Forall2 R (map g l) zs.
Proof.
  intros X Y Z' R g l. induction l as [|x l IH]; intros zs; split; intros H; inversion H; subst; simpl; constructor; auto;
    apply IH; auto.
Qed.

Lemma set_sc_id : forall p : pfield F, pf_set_sc (pf_sc p) p = p.
Proof. intros []; reflexivity. Qed.

Lemma eval_with_ret : forall (f : ip -> outcome (num O)) (pt : ft F -> pfield F -> outcome (pfield F)) c (m m' : mesh O K) p p' sc s a,
  mesh_basis f c (m, pf_sc p) = RRet (m', sc) s -> pf_sum s (pf_set_sc sc p) = Ok a -> pt a (pf_set_sc sc p) = Ok p' ->
  pf_eval_with f pt c (m, p) = RRet (m', p') a.
Proof. intros f pt c m m' p p' sc s a H1 H2 H3. unfold pf_eval_with. cbn [fst snd]. rewrite H1, H2. cbn [obind]. rewrite H3. reflexivity. Qed.

Lemma field_eval_spec : forall m0 data zero m p q c, mesh_ok m0 (List.length data) -> field_ok m0 data zero (m, p) ->
  on_axes (kdim K) q ->
  match view (me_bin m0) (kcoords K c) with
  | Ok its => exists m' p' a, field_eval q c (m, p) = RRet (m', p') a /\ field_ok m0 data zero (m', p') /\
      result_is q c its p a /\ field_stored p' q = Ok a /\
      (forall q', q' <> q -> field_stored p' q' = field_stored p q') /\
      (find (fun it => it_range it c) its = None -> pf_sc p' = pf_sc p)
  | Throw e => exists m', field_eval q c (m, p) = RThrow (m', p) e /\ field_ok m0 data zero (m', p)
  | Exit => field_eval q c (m, p) = RExit
  | UB r => field_eval q c (m, p) = RUB r
  | NoFuel => field_eval q c (m, p) = RNoFuel
  end.
Proof.
  intros m0 data zero m p q c Hm Hf Hq. rewrite field_eval_with.
  destruct Hf as [H1 H2 H3 H4 H5 H6 H7 H8]. simpl in *.
  assert (Hv : view (me_bin m) (kcoords K c) = view (me_bin m0) (kcoords K c)).
  { destruct H1 as (_ & _ & _ & _ & H1). apply view_same; auto. apply bin_good_indices. apply (mk_bin _ _ Hm). }
  pose proof (basis_cases (ask q c) c m (pf_sc p)) as B. rewrite Hv in B.
  destruct (view (me_bin m0) (kcoords K c)) as [its|e| |r|] eqn:Ev.
  - assert (Hat : exists t, nd_at (bin_item (me_bin m0)) t = Ok its).
    { unfold view in Ev. destruct (bin_contents (kcoords K c) (me_bin m0)) as [b l| | | |] eqn:E; try discriminate.
      injection Ev as ->. eapply contents_at; eauto. }
    destruct Hat as (t & Hat). specialize (B (mk_size _ _ Hm _ _ Hat)). destruct B as (m' & Hmm & B).
    pose proof (mk_node _ _ Hm _ (nd_at_in _ _ _ _ Hat)) as Hn.
    pose proof (mk_ask _ _ Hm _ (nd_at_in _ _ _ _ Hat)) as Ha.
    specialize (H6 _ _ Hat) as Hlb. specialize (H7 _ _ Hat) as Hln.
    destruct (find (fun it => it_range it c) its) as [it0|] eqn:Efind.
    + destruct (weigh_total q c (it_elem it0) its Ha Hq) as (ws & Hws).
      destruct (data_total data (map it_node its)) as (vs & Hvs).
      { apply Forall_map. exact Hn. }
      pose proof (fill_ok (ask q c) (it_elem it0) its ws Hws [] [] (sc_bf (pf_sc p)) (sc_ni (pf_sc p)) eq_refl Hlb Hln) as Hfill.
      simpl in Hfill. replace (mkScratch (sc_bf (pf_sc p)) (sc_ni (pf_sc p))) with (pf_sc p) in Hfill by (destruct (pf_sc p); reflexivity).
      specialize (B _ Hfill).
      set (sc' := mkScratch _ _) in *.
      assert (Lw : List.length ws = List.length its) by (clear -Hws; induction Hws; simpl; auto).
      assert (Hsum : pf_sum (Z.of_nat (List.length its)) (pf_set_sc sc' p) = Ok (wsum (pf_zero p) (combine ws vs))).
      { replace (List.length its) with (List.length (map it_node its)) by apply map_length.
        eapply (sum_ok (pf_set_sc sc' p)); simpl; try reflexivity.
        - rewrite map_length. auto.
        - rewrite H2. exact Hvs. }
      destruct (put_ok q (wsum (pf_zero p) (combine ws vs)) (pf_set_sc sc' p) Hq H4 H5)
        as (p' & Hp & P0 & P1 & P2 & P3 & P4 & P5 & P6 & P7).
      simpl in P1, P2, P3.
      exists m', p', (wsum (pf_zero p) (combine ws vs)).
      split; [eapply eval_with_ret; eauto|]. split.
      { constructor; simpl; auto.
        - eapply same_mesh_trans; eauto.
        - congruence.
        - congruence.
        - intros t' l' Hat'. rewrite P3. simpl. rewrite app_length, skipn_length. specialize (H6 _ _ Hat'). lia.
        - intros t' l' Hat'. rewrite P3. simpl. rewrite app_length, skipn_length, map_length. specialize (H7 _ _ Hat'). lia.
        - rewrite P3. simpl. apply Forall_app. split.
          + apply Forall_map. eapply Forall_impl; [|exact Hn]. simpl. auto.
          + apply Forall_skipn. exact H8. }
      split.
      { unfold result_is. rewrite Efind. exists ws, vs. split; auto. split; auto.
        rewrite H2. apply (Forall2_map_l _ _ _ (fun n v => vget data n = Ok v)). exact Hvs. }
      split; [exact P6|]. split; [|discriminate].
      intros q' Hne. rewrite (P7 q' Hne). destruct q'; reflexivity.
    + assert (Hvs : exists vs, Forall2 (fun n v => vget data n = Ok v) (firstn (List.length its) (sc_ni (pf_sc p))) vs).
      { destruct its as [|it its]; [exists []; constructor|]. apply data_total. apply Forall_firstn.
        inversion Hn as [|? ? Hit _]; subst. eapply Forall_impl; [|exact H8]. simpl. intros n [H|H]; lia. }
      destruct Hvs as (vs & Hvs).
      assert (Hsum : pf_sum (Z.of_nat (List.length its)) p =
                Ok (wsum (pf_zero p) (combine (firstn (List.length its) (sc_bf (pf_sc p))) vs))).
      { replace (List.length its) with (List.length (firstn (List.length its) (sc_ni (pf_sc p)))) at 1
          by (rewrite firstn_length; lia).
        eapply (sum_ok p); try (symmetry; apply firstn_skipn).
        - rewrite !firstn_length. lia.
        - rewrite H2. exact Hvs. }
      set (a := wsum _ _) in *.
      destruct (put_ok q a p Hq H4 H5) as (p' & Hp & P0 & P1 & P2 & P3 & P4 & P5 & P6 & P7).
      exists m', p', a. split.
      { eapply eval_with_ret; [exact B| |]; rewrite set_sc_id; auto. }
      split.
      { constructor; simpl; rewrite ?P3; auto; try congruence. eapply same_mesh_trans; eauto. }
      split.
      { unfold result_is. rewrite Efind. exists vs. rewrite H2. split; auto. }
      auto.
  - destruct B as (m' & B & Hmm). exists m'. unfold pf_eval_with. cbn [fst snd]. rewrite B, set_sc_id. split; [reflexivity|].
    constructor; simpl; auto. eapply same_mesh_trans; eauto.
  - unfold pf_eval_with. cbn [fst snd]. rewrite B. reflexivity.
  - unfold pf_eval_with. cbn [fst snd]. rewrite B. reflexivity.
  - unfold pf_eval_with. cbn [fst snd]. rewrite B. reflexivity.
Qed.

Lemma history_ok : forall m0 data zero s h s', mesh_ok m0 (List.length data) -> field_ok m0 data zero s ->
  field_history s h s' -> field_ok m0 data zero s'.
Proof.
  intros m0 data zero s h s' Hm Hs H.
  induction H as [|h s1 q c a s2 H IH Hq He|h s1 q c e s2 H IH Hq He]; auto; destruct s1 as [m p];
    pose proof (field_eval_spec m0 data zero m p q c Hm IH Hq) as S;
    destruct (view (me_bin m0) (kcoords K c)) as [its|e'| |r|].
  - destruct S as (m' & p' & a' & S & Hok & _). congruence.
  - destruct S as (m' & S & Hok). congruence.
  - congruence.
  - congruence.
  - congruence.
  - destruct S as (m' & p' & a' & S & Hok & _). congruence.
  - destruct S as (m' & S & Hok). rewrite He in S. injection S as -> _. exact Hok.
  - congruence.
  - congruence.
  - congruence.
Qed.

(** C23: stored results are those of the last evaluation. *)
Lemma history_stored : forall m0 data zero m p h m' p', mesh_ok m0 (List.length data) -> field_ok m0 data zero (m, p) ->
  field_history (m, p) h (m', p') ->
  forall q, field_stored p' q = match latest h q with Some a => Ok a | None => field_stored p q end.
Proof.
  intros m0 data zero m p h m' p' Hm Hs H. remember (m', p') as s' eqn:E. revert m' p' E.
  induction H as [|h [m1 p1] q0 c a s2 H IH Hq He|h [m1 p1] q0 c e s2 H IH Hq He]; intros m' p' E q.
  - injection E as -> ->. reflexivity.
  - subst s2. pose proof (history_ok _ _ _ _ _ _ Hm Hs H) as Hok.
    pose proof (field_eval_spec m0 data zero m1 p1 q0 c Hm Hok Hq) as S.
    destruct (view (me_bin m0) (kcoords K c)) as [its|e'| |r|]; try congruence; [|destruct S as (? & S & _); congruence].
    destruct S as (m2 & p2 & a' & S & _ & _ & S1 & S2 & _). rewrite He in S. injection S as -> -> ->.
    unfold latest. rewrite fold_left_app. simpl. fold (latest h q). destruct (quantity_eq_dec q q0) as [->|Hne]; [exact S1|].
    rewrite (S2 q Hne). apply (IH _ _ eq_refl).
  - subst s2. pose proof (history_ok _ _ _ _ _ _ Hm Hs H) as Hok.
    pose proof (field_eval_spec m0 data zero m1 p1 q0 c Hm Hok Hq) as S.
    destruct (view (me_bin m0) (kcoords K c)) as [its|e'| |r|]; try congruence; [destruct S as (? & ? & ? & S & _); congruence|].
    destruct S as (m2 & S & _). rewrite He in S. injection S as -> -> _.
    unfold latest. rewrite fold_left_app. simpl. fold (latest h q). apply (IH _ _ eq_refl).
Qed.

(** ** eval_grad and eval_hess *)

(** Evaluating the quantities [qs] one after another at [c]. *)
Fixpoint eval_all (qs : list quantity) (c : kpoint K) : M state unit :=
  match qs with
  | [] => mret tt
  | q :: qs' => field_eval q c ;;; eval_all qs' c
  end.

Lemma mfor_all : forall (A : Type) (f : A -> quantity) l c (s : state),
  mfor l (fun x => field_eval (f x) c ;;; mret tt) s = eval_all (map f l) c s.
Proof.
  intros A f l c. induction l as [|x l IH]; intros s; simpl; [reflexivity|].
  unfold mbind. destruct (field_eval (f x) c s); simpl; auto.
Qed.

Lemma eval_all_app : forall qs qs' c (s : state), eval_all (qs ++ qs') c s = (eval_all qs c ;;; eval_all qs' c) s.
Proof.
  induction qs as [|q qs IH]; intros qs' c s; simpl; [reflexivity|].
  unfold mbind in *. destruct (field_eval q c s); auto.
Qed.

Lemma eval_grad_all : forall c (s : state), pf_eval_grad c s = eval_all (map QGrad (dims (K:=K))) c s.
Proof. intros c s. unfold pf_eval_grad. apply (mfor_all _ QGrad). Qed.

Lemma mfor_flat : forall (A : Type) (g : A -> list quantity) l c (s : state),
  mfor l (fun x => eval_all (g x) c) s = eval_all (flat_map g l) c s.
Proof.
  intros A g l c. induction l as [|x l IH]; intros s; simpl; [reflexivity|].
  rewrite eval_all_app. unfold mbind. destruct (eval_all (g x) c s); auto.
Qed.

Lemma mfor_ext : forall (S A : Type) (f g : A -> M S unit) l, (forall x s, f x s = g x s) -> forall s, mfor l f s = mfor l g s.
Proof.
  intros S A f g l H. induction l as [|x l IH]; intros s; simpl; [reflexivity|].
  unfold mbind. rewrite H. destruct (g x s); auto.
Qed.

Lemma eval_hess_all : forall c (s : state),
  pf_eval_hess c s = eval_all (flat_map (fun i => map (QHess i) (dims (K:=K))) (dims (K:=K))) c s.
Proof.
  intros c s. unfold pf_eval_hess. rewrite <- mfor_flat. apply mfor_ext. intros i s'. apply (mfor_all _ (QHess i)).
Qed.

Lemma eval_all_spec : forall m0 data zero qs c, mesh_ok m0 (List.length data) -> Forall (on_axes (kdim K)) qs ->
  forall m p, field_ok m0 data zero (m, p) ->
  match view (me_bin m0) (kcoords K c) with
  | Ok its => exists m' p', eval_all qs c (m, p) = RRet (m', p') tt /\ field_ok m0 data zero (m', p') /\
      (find (fun it => it_range it c) its = None -> pf_sc p' = pf_sc p) /\
      forall q, (In q qs -> exists a, result_is q c its p a /\ field_stored p' q = Ok a) /\
                (~ In q qs -> field_stored p' q = field_stored p q)
  | Throw e => qs <> [] -> exists m', eval_all qs c (m, p) = RThrow (m', p) e /\ field_ok m0 data zero (m', p)
  | Exit => qs <> [] -> eval_all qs c (m, p) = RExit
  | UB r => qs <> [] -> eval_all qs c (m, p) = RUB r
  | NoFuel => qs <> [] -> eval_all qs c (m, p) = RNoFuel
  end.
Proof.
  intros m0 data zero qs c Hm Hqs. induction Hqs as [|q qs Hq Hqs IH]; intros m p Hok.
  - destruct (view (me_bin m0) (kcoords K c)) as [its|e'| |r|]; try congruence.
    exists m, p. simpl. split; [reflexivity|]. split; auto. split; auto. intros q. split; [intros []|auto].
  - pose proof (field_eval_spec m0 data zero m p q c Hm Hok Hq) as S. cbn [eval_all]. unfold mbind.
    destruct (view (me_bin m0) (kcoords K c)) as [its|e'| |r|].
    + destruct S as (m1 & p1 & a & S & Hok1 & S1 & S2 & S3 & S4). rewrite S.
      destruct (IH m1 p1 Hok1) as (m' & p' & E & Hok' & S5 & S6). exists m', p'. split; [exact E|]. split; [exact Hok'|].
      split; [intros Hn; rewrite (S5 Hn); auto|].
      assert (T : forall q' a', result_is q' c its p1 a' -> result_is q' c its p a').
      { intros q' a' R. unfold result_is in *.
        assert (E1 : pf_field p1 = pf_field p)
          by (transitivity data; [exact (fk_field _ _ _ _ Hok1)|symmetry; exact (fk_field _ _ _ _ Hok)]).
        assert (E2 : pf_zero p1 = pf_zero p)
          by (transitivity zero; [exact (fk_zero _ _ _ _ Hok1)|symmetry; exact (fk_zero _ _ _ _ Hok)]).
        rewrite E1, E2 in R.
        destruct (find _ its); [exact R|]. rewrite (S4 eq_refl) in R. exact R. }
      intros q'. destruct (S6 q') as [S7 S8]. split.
      * intros Hin. destruct (in_dec quantity_eq_dec q' qs) as [Hi|Hi].
        -- destruct (S7 Hi) as (a' & R & St). exists a'. split; auto.
        -- destruct Hin as [<-|Hin]; [|contradiction]. exists a. split; auto. rewrite (S8 Hi). exact S2.
      * intros Hin. rewrite S8 by (intros Hi; apply Hin; right; auto). apply S3. intros ->. apply Hin; left; auto.
    + intros _. destruct S as (m' & S & Hok'). exists m'. rewrite S. auto.
    + intros _. rewrite S. auto.
    + intros _. rewrite S. auto.
    + intros _. rewrite S. auto.
Qed.

End Field.
