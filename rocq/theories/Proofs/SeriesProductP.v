(** Series: products of the basis functions of one term. *)
From Coq Require Import ZArith Reals.
From Coquelicot Require Import Coquelicot.
From Coq Require Import List Bool Lia ZifyBool.
From Verif Require Import Model.Outcome Model.Num Model.NumInst Model.PNDArray Model.PSimple Model.BasisSet Model.Series Spec.Tensor Spec.NDHistory
  Spec.Basis Spec.Series Spec.Products Proofs.OutcomeP Proofs.PNDArrayP Proofs.FuncObjP Proofs.BasisP Proofs.SeriesSumP Proofs.SeriesP
  Proofs.SeriesEvalP Proofs.SeriesOneP Proofs.SeriesRP Proofs.SeriesClientP.
Import ListNotations.
Local Open Scope Z_scope.

Section Product.
Context {S : SerOps}.
Local Notation X := (sx S).
Local Notation A := (sa S).
Implicit Types (s : series S) (bs : list (bset X A)).

Lemma call_step : forall bs zero one s k j (b : bset X A) x t (g : Z -> A),
  inv bs zero one s -> nth_error bs j = Some b -> bs_size b <= int_max -> 0 <= t < bs_size b -> fun_of b k t x = Ok (g t) ->
  exists s', on_basis (Z.of_nat j) (pb_call_k k t x) s = RRet s' (g t) /\ inv bs zero one s' /\ frame s s' /\
    (forall k' j' t', fits_int t' -> stored_basis s' k' (Z.of_nat j') t' =
       if (if kind_eq_dec k' k then Nat.eqb j' j && (t' =? t) else false) then Ok (g t) else stored_basis s k' (Z.of_nat j') t').
Proof.
  intros bs zero one s k j b x t g Hi Hb Hm Ht Hg.
  destruct (entry_at _ _ _ _ _ _ Hi Hb) as (b' & Hv & Hs). pose proof Hs as (Hf & Hl).
  unfold int_max in Hm. pose proof (size_nonneg b) as Hnn.
  assert (Hvs : vset (cache b' k) t (g t) = Ok (lset (cache b' k) (Z.to_nat t) (g t))).
  { unfold vset. rewrite Hl. replace ((0 <=? t) && (t <? Z.of_nat (Z.to_nat (bs_size b)))) with true by lia. reflexivity. }
  assert (Heval : on_basis (Z.of_nat j) (pb_call_k k t x) s =
    RRet (mkSeries (se_coeff s) (se_one s) (se_zero s)
            (lset (se_basis s) j (Some (set_cache b' k (lset (cache b' k) (Z.to_nat t) (g t))))) (se_val s) (se_grad s) (se_hess s)) (g t)).
  { unfold on_basis, on_elem. rewrite Hv, pb_call_k_eq, bevaluate_eq. unfold int_to_size. rewrite Z.mod_small by lia.
    rewrite Hf, Hg, Hvs. now rewrite Nat2Z.id. }
  rewrite Heval. eexists; split; [reflexivity|]. split.
  { pose proof (keeps_on_basis bs zero one _ (Z.of_nat j) (pb_call_k k t x) (fun b => keeps_call_k k t x b) s Hi) as Hk.
    rewrite Heval in Hk. exact Hk. }
  split; [repeat split|]. set (s' := mkSeries _ _ _ _ _ _ _).
  assert (Hv' : vget (se_basis s') (Z.of_nat j) = Ok (Some (set_cache b' k (lset (cache b' k) (Z.to_nat t) (g t))))).
  { simpl. pose proof (vget_lset_same _ (se_basis s) (Z.of_nat j) (Some (set_cache b' k (lset (cache b' k) (Z.to_nat t) (g t)))) _ Hv) as E.
    now rewrite Nat2Z.id in E. }
  intros k' j' t' Ht'. unfold fits_int, int_max in Ht'.
  destruct (Nat.eqb j' j) eqn:Ej.
  - apply Nat.eqb_eq in Ej. subst j'.
    assert (Hst : forall u (b0 : bset X A), vget (se_basis u) (Z.of_nat j) = Ok (Some b0) ->
      stored_basis u k' (Z.of_nat j) t' = vget (cache b0 k') (int_to_size t')).
    { intros u b0 H. unfold stored_basis, se_get_basis, se_get_basis_grad, se_get_basis_hess, basis_get. rewrite H. destruct k'; reflexivity. }
    rewrite (Hst s' _ Hv'), (Hst s _ Hv). destruct (kind_eq_dec k' k) as [->|Hk].
    + rewrite cache_set_same. simpl. destruct (t' =? t) eqn:E.
      * assert (t' = t) by lia. subst t'. unfold int_to_size. rewrite Z.mod_small by lia.
        apply vget_some. split; [lia|]. apply nth_error_lset_same. rewrite Hl. lia.
      * unfold int_to_size, vget. destruct (0 <=? t' mod 2 ^ 64) eqn:E0; [|reflexivity].
        rewrite nth_error_lset_other; [reflexivity|].
        destruct (Z_lt_dec t' 0).
        -- replace (t' mod 2 ^ 64) with (t' + 2 ^ 64) by (apply Zmod_unique with (-1); lia). lia.
        -- rewrite Z.mod_small by lia. lia.
    + rewrite cache_set_other by auto. reflexivity.
  - apply Nat.eqb_neq in Ej.
    replace (if kind_eq_dec k' k then false && (t' =? t) else false) with false by (destruct (kind_eq_dec k' k); reflexivity).
    unfold stored_basis, se_get_basis, se_get_basis_grad, se_get_basis_hess, basis_get. simpl.
    pose proof (vget_lset_other _ (se_basis s) (Z.of_nat j) (Z.of_nat j') (Some (set_cache b' k (lset (cache b' k) (Z.to_nat t) (g t))))) as E.
    rewrite Nat2Z.id in E. rewrite E by lia. reflexivity.
Qed.

Lemma valid_in : forall dims t j n, valid_index dims t -> nth_error dims j = Some n -> exists k, nth_error t j = Some k /\ 0 <= k < n.
Proof.
  intros dims t j n H. revert j. induction H as [|d i ds l Hi H IH]; intros [|j] Hn; simpl in *; try discriminate.
  - injection Hn as <-. eauto.
  - eauto.
Qed.

Lemma skipn_nth : forall (B : Type) (l : list B) i x, nth_error l i = Some x -> skipn i l = x :: skipn (Datatypes.S i) l.
Proof. intros B l. induction l as [|y l IH]; intros [|i] x H; simpl in *; try discriminate; [congruence|]. apply IH. auto. Qed.

(** The loop over the variables. *)
Lemma product_loop : forall bs zero one (kof : Z -> kind) (gs : list (Z -> A)) t xs, fit_sizes (sizes bs) -> valid_index (sizes bs) t ->
  List.length gs = List.length bs -> List.length xs = List.length bs ->
  (forall j b x g u, nth_error bs j = Some b -> nth_error xs j = Some x -> nth_error gs j = Some g -> 0 <= u < bs_size b ->
     fun_of b (kof (Z.of_nat j)) u x = Ok (g u)) ->
  forall m i s tmp, (i + m = List.length bs)%nat -> inv bs zero one s ->
  exists s', fresh_product (map Z.of_nat (seq i m)) (fun j u x => on_basis j (pb_call_k (kof j) u x)) t xs tmp s =
      RRet s' (fold_left (smul S) (factors (skipn i gs) (skipn i t)) tmp) /\ inv bs zero one s' /\ frame s s' /\
    (forall j g u, (i <= j)%nat -> nth_error gs j = Some g -> nth_error t j = Some u -> stored_basis s' (kof (Z.of_nat j)) (Z.of_nat j) u = Ok (g u)) /\
    (forall k j u, fits_int u -> ~ ((i <= j)%nat /\ k = kof (Z.of_nat j) /\ nth_error t j = Some u) ->
       stored_basis s' k (Z.of_nat j) u = stored_basis s k (Z.of_nat j) u).
Proof.
  intros bs zero one kof gs t xs Hfit Hvalid Hlg Hlx Hfun.
  assert (Hlt : List.length t = List.length bs) by (rewrite (valid_index_length _ _ Hvalid); unfold sizes; apply map_length).
  assert (Hall : forall j b, nth_error bs j = Some b -> exists u g, nth_error t j = Some u /\ nth_error gs j = Some g /\ 0 <= u < bs_size b /\ fits_int u).
  { intros j b Hb. assert (Hd : nth_error (sizes bs) j = Some (bs_size b)) by (unfold sizes; now rewrite (map_nth_error bs_size _ _ Hb)).
    destruct (valid_in _ _ _ _ Hvalid Hd) as (u & Hu & Hr).
    assert (Hjb : (j < List.length bs)%nat) by (apply nth_error_Some; congruence).
    destruct (nth_error gs j) as [g|] eqn:Eg; [|apply nth_error_None in Eg; lia].
    exists u, g. pose proof (sizes_bound bs j b Hfit Hb). unfold fits_int, int_max in *. repeat split; auto; lia. }
  induction m as [|m IH]; intros i s tmp Him Hi.
  - exists s. simpl. rewrite !skipn_all2 by lia. split; [reflexivity|]. split; [auto|]. split; [apply frame_refl|]. split.
    + intros j g u Hj Hg. assert (j < List.length gs)%nat by (apply nth_error_Some; congruence). lia.
    + reflexivity.
  - destruct (nth_error bs i) as [b|] eqn:Eb; [|apply nth_error_None in Eb; lia].
    destruct (nth_error xs i) as [x|] eqn:Ex; [|apply nth_error_None in Ex; lia].
    destruct (Hall i b Eb) as (u & g & Eu & Eg & Hu & Hfu).
    destruct (call_step bs zero one s (kof (Z.of_nat i)) i b x u g Hi Eb (sizes_bound bs i b Hfit Eb) Hu) as (s1 & E1 & Hi1 & Hf1 & Ho1).
    { eapply Hfun; eauto. }
    destruct (IH (Datatypes.S i) s1 (smul S tmp (g u)) ltac:(lia) Hi1) as (s2 & E2 & Hi2 & Hf2 & Hn2 & Ho2).
    exists s2. split; [|split; [auto|split; [eapply frame_trans; eauto|split]]].
    + rewrite (skipn_nth _ _ _ _ Eg), (skipn_nth _ _ _ _ Eu).
      cbn [seq map fresh_product]. unfold mbind, mlift. rewrite !vget_nat, Eu, Ex, E1. exact E2.
    + intros j g' u' Hj Hg' Hu'. destruct (Nat.eq_dec j i) as [->|Hji].
      * rewrite Eg in Hg'. rewrite Eu in Hu'. injection Hg' as <-. injection Hu' as <-. rewrite Ho2; [|auto|intros (? & _); lia].
        rewrite Ho1 by auto. destruct (kind_eq_dec (kof (Z.of_nat i)) (kof (Z.of_nat i))) as [_|n]; [|congruence].
        rewrite Nat.eqb_refl, Z.eqb_refl. reflexivity.
      * apply Hn2; auto. lia.
    + intros k j u' Hu' Hno. rewrite Ho2; auto; [|intros (? & ?); apply Hno; split; [lia|auto]].
      rewrite Ho1 by auto. destruct (kind_eq_dec k (kof (Z.of_nat i))) as [->|_]; [|reflexivity].
      destruct (Nat.eqb j i && (u' =? u)) eqn:E; [|reflexivity]. exfalso. apply Hno.
      apply andb_prop in E. destruct E as [E E']. apply Nat.eqb_eq in E. assert (u' = u) by lia. subst. auto.
Qed.

Lemma fresh_ext : forall (ev ev' : Z -> Z -> X -> M (series S) A) js t xs tmp s, (forall j u x s0, ev j u x s0 = ev' j u x s0) ->
  fresh_product js ev t xs tmp s = fresh_product js ev' t xs tmp s.
Proof.
  intros ev ev' js t xs tmp s H. revert tmp s. induction js as [|j js IH]; intros tmp s; [reflexivity|]. cbn [fresh_product].
  unfold mbind, mlift. destruct (vget t j); auto. destruct (vget xs j); auto. rewrite H. destruct (ev' j _ _ s); auto.
Qed.

Lemma order_one : forall i j, order_of [i] j = if j =? i then KGrad else KVal.
Proof. intros i j. unfold order_of. simpl. destruct (Z.eq_dec i j), (j =? i) eqn:E; auto; lia. Qed.
Lemma order_two : forall i i' j, order_of [i; i'] j = if (j =? i) || (j =? i') then if i =? i' then KHess else KGrad else KVal.
Proof.
  intros i i' j. unfold order_of. simpl. destruct (Z.eq_dec i' j), (Z.eq_dec i j), (j =? i) eqn:E1, (j =? i') eqn:E2, (i =? i') eqn:E3; auto; lia.
Qed.

Lemma product_at_eq : forall ds t xs m s, product_at (S := S) ds t xs = Some m ->
  m s = fresh_product (zseq (nd_order (se_coeff s))) (fun j u x => on_basis j (pb_call_k (order_of ds j) u x)) t xs (se_one s) s.
Proof.
  intros [|i [|i' [|]]] t xs m s H; try discriminate; injection H as <-; unfold se_product, se_product_grad, se_product_hess, mbind, mget;
    apply fresh_ext; intros j u x s0.
  - reflexivity.
  - rewrite order_one. destruct (j =? i); reflexivity.
  - rewrite order_two. destruct ((j =? i) || (j =? i')); [destruct (i =? i')|]; reflexivity.
Qed.

Lemma product_run : forall ds t xs m, product_at (S := S) ds t xs = Some m ->
  exists c, forall s s' a, m s = RRet s' a -> srun c s = RRet s' tt.
Proof.
  intros [|i [|i' [|]]] t xs m H; try discriminate; injection H as <-;
    [exists (SProduct t xs)|exists (SProductGrad t xs i)|exists (SProductHess t xs i i')]; intros s s' a E; simpl; unfold mbind; rewrite E; reflexivity.
Qed.

Lemma product_fresh : forall bs zero one s fams fs ds t xs m, proper_basis bs -> series_over bs zero one s ->
  (forall j, let k := order_of ds j in implements k bs (fams k)) -> chosen ds (List.length bs) (fun k => at_point (fams k) xs) fs -> List.length xs = List.length bs ->
  valid_index (sizes bs) t -> product_at ds t xs = Some m ->
  exists s', m s = RRet s' (term_product fs t one) /\ series_over bs zero one s' /\
    updates (fun k j u => k = order_of ds (Z.of_nat j) /\ nth_error t j = Some u) (sizes bs) fs s s'.
Proof.
  intros bs zero one s fams fs ds t xs m Hp Ho Himp (Hlen & Hch) Hxs Hvalid Hm.
  pose proof (over_inv _ _ _ _ Hp Ho) as Hi. destruct Hp as (_ & Hfit).
  assert (Hlf : forall j, List.length (fams (order_of ds j)) = List.length bs) by (intros k; symmetry; exact (Forall2_len _ _ _ _ _ (Himp k))).
  destruct (product_loop bs zero one (order_of ds) fs t xs Hfit Hvalid Hlen Hxs) with (m := List.length bs) (i := 0%nat) (s := s) (tmp := one)
    as (s' & E & Hi' & Hf & Hn & Hot); auto.
  - intros j b x g u Hb Hx Hg Hu. pose proof (Hch j g Hg) as Hg'.
    assert (Hjb : (j < List.length bs)%nat) by (apply nth_error_Some; congruence).
    destruct (nth_error (fams (order_of ds (Z.of_nat j))) j) as [phi|] eqn:Ep; [|apply nth_error_None in Ep; rewrite Hlf in Ep; lia].
    rewrite (at_point_nth _ _ _ _ _ Ep Hx) in Hg'. injection Hg' as <-.
    exact (Forall2_nth_error _ _ _ _ _ _ _ _ (Himp (Z.of_nat j)) Hb Ep u x Hu).
  - exists s'. assert (Em : m s = RRet s' (term_product fs t one)).
    { rewrite (product_at_eq _ _ _ _ s Hm), (zseq_order _ _ _ _ Hi), (inv_one _ _ _ _ Hi). exact E. }
    split; [exact Em|]. split.
    { destruct (product_run _ _ _ _ Hm) as (c & Hc). eapply SRet; eauto. }
    destruct Hf as (F1 & F2 & F3 & F4). split; [auto|]. split; [unfold se_get; now rewrite F2|].
    split; [intros; unfold se_get_grad; now rewrite F3|]. split; [intros; unfold se_get_hess; now rewrite F4|].
    intros k j n f u Hd Hfj Hu. split.
    + intros (-> & Ht). eapply Hn; eauto. lia.
    + intros Hno. apply Hot.
      * unfold sizes in Hd. destruct (nth_error bs j) as [b|] eqn:Eb.
        -- rewrite (map_nth_error bs_size _ _ Eb) in Hd. injection Hd as <-. pose proof (sizes_bound bs j b Hfit Eb) as Hb.
           unfold fits_int, int_max in *. lia.
        -- apply nth_error_None in Eb. assert (j < List.length (map bs_size bs))%nat by (apply nth_error_Some; congruence).
           rewrite map_length in *. lia.
      * intros (_ & Hk & Ht). auto.
Qed.

(** *** Products of stored results *)
Lemma stored_loop : forall dims (pick : Z -> Z -> outcome A) (fs : list (Z -> A)) t, valid_index dims t -> List.length fs = List.length dims ->
  (forall j n f u, nth_error dims j = Some n -> nth_error fs j = Some f -> 0 <= u < n -> pick (Z.of_nat j) u = Ok (f u)) ->
  forall m i tmp, (i + m = List.length dims)%nat ->
  ofold (fun tmp j => let* u := vget t j in let* b := pick j u in Ok (smul S tmp b)) (map Z.of_nat (seq i m)) tmp =
  Ok (fold_left (smul S) (factors (skipn i fs) (skipn i t)) tmp).
Proof.
  intros dims pick fs t Hvalid Hl Hpick. pose proof (valid_index_length _ _ Hvalid) as Hlt.
  induction m as [|m IH]; intros i tmp Him.
  - simpl. rewrite !skipn_all2 by lia. reflexivity.
  - destruct (nth_error dims i) as [n|] eqn:En; [|apply nth_error_None in En; lia].
    destruct (nth_error fs i) as [f|] eqn:Ef; [|apply nth_error_None in Ef; lia].
    destruct (valid_in _ _ _ _ Hvalid En) as (u & Eu & Hu).
    rewrite (skipn_nth _ _ _ _ Ef), (skipn_nth _ _ _ _ Eu). cbn [seq map ofold]. rewrite vget_nat, Eu. cbn [obind].
    rewrite (Hpick i n f u) by auto. cbn [obind]. rewrite IH by lia. reflexivity.
Qed.

Lemma product_kept : forall bs zero one s fams fs ds t o, proper_basis bs -> series_over bs zero one s ->
  (forall j, let k := order_of ds j in cached s (sizes bs) k (fams k)) -> chosen ds (List.length bs) fams fs -> valid_index (sizes bs) t -> product_stored ds t s = Some o ->
  o = Ok (term_product fs t one).
Proof.
  intros bs zero one s fams fs ds t o Hp Ho Hc (Hlen & Hch) Hvalid Hs.
  pose proof (over_inv _ _ _ _ Hp Ho) as Hi.
  assert (Hsum : forall pick, (forall j u, pick j u = stored_basis s (order_of ds j) j u) -> stored_product pick s t = Ok (term_product fs t one)).
  { intros pick Hpick. unfold stored_product. rewrite (zseq_order _ _ _ _ Hi), (inv_one _ _ _ _ Hi).
    apply (stored_loop (sizes bs) pick fs t Hvalid).
    - unfold sizes. now rewrite map_length.
    - intros j n f u Hd Hf Hu. rewrite Hpick. destruct (Hc (Z.of_nat j)) as (_ & H). eapply H; eauto.
    - unfold sizes. now rewrite map_length. }
  destruct ds as [|i [|i' [|]]]; try discriminate; injection Hs as <-; apply Hsum; intros j u.
  - reflexivity.
  - rewrite order_one. unfold pick_grad. destruct (j =? i); reflexivity.
  - rewrite order_two. unfold pick_hess. destruct ((j =? i) || (j =? i')); [destruct (i =? i')|]; reflexivity.
Qed.

(** *** One term of one basis set *)
Lemma term_fresh : forall bs zero one s k phis j phi x t xs n, proper_basis bs -> series_over bs zero one s -> implements k bs phis ->
  nth_error phis j = Some phi -> nth_error xs j = Some x -> nth_error (sizes bs) j = Some n -> 0 <= t < n ->
  List.length xs = List.length bs ->
  exists s', term_at k (Z.of_nat j) t xs s = RRet s' (phi t x) /\ series_over bs zero one s' /\
    updates (fun k' j' u => k' = k /\ j' = j /\ u = t) (sizes bs) (at_point phis xs) s s'.
Proof.
  intros bs zero one s k phis j phi x t xs n Hp Ho Himp Hphi Hx Hd Ht Hxs.
  pose proof (over_inv _ _ _ _ Hp Ho) as Hi. destruct Hp as (_ & Hfit).
  destruct (nth_error bs j) as [b|] eqn:Eb.
  2: { apply nth_error_None in Eb. assert (j < List.length (sizes bs))%nat by (apply nth_error_Some; congruence). unfold sizes in *. rewrite map_length in *. lia. }
  unfold sizes in Hd. rewrite (map_nth_error bs_size _ _ Eb) in Hd. injection Hd as <-.
  destruct (call_step bs zero one s k j b x t (fun u => phi u x) Hi Eb (sizes_bound bs j b Hfit Eb) Ht) as (s' & E & Hi' & Hf & Hot).
  { exact (Forall2_nth_error _ _ _ _ _ _ _ _ Himp Eb Hphi t x Ht). }
  assert (Et : term_at k (Z.of_nat j) t xs s = RRet s' (phi t x)).
  { destruct k; unfold term_at, se_basis1, se_basis_grad1, se_basis_hess1, mbind, mlift; rewrite vget_nat, Hx; exact E. }
  exists s'. split; [exact Et|]. split.
  { eapply (SRet bs zero one s (STerm k (Z.of_nat j) t xs)); [exact Ho|]. destruct k; simpl in *; unfold mbind at 1; rewrite Et; reflexivity. }
  destruct Hf as (F1 & F2 & F3 & F4). split; [auto|]. split; [unfold se_get; now rewrite F2|].
  split; [intros; unfold se_get_grad; now rewrite F3|]. split; [intros; unfold se_get_hess; now rewrite F4|].
  intros k' j' n f u Hd' Hfj Hu.
  assert (Hfit' : fits_int u).
  { unfold sizes in Hd'. destruct (nth_error bs j') as [b'|] eqn:Eb'.
    - rewrite (map_nth_error bs_size _ _ Eb') in Hd'. injection Hd' as <-. pose proof (sizes_bound bs j' b' Hfit Eb') as Hb. unfold fits_int, int_max in *. lia.
    - apply nth_error_None in Eb'. assert (j' < List.length (map bs_size bs))%nat by (apply nth_error_Some; congruence). rewrite map_length in *. lia. }
  rewrite (Hot k' j' u Hfit'). split.
  - intros (-> & -> & ->). destruct (kind_eq_dec k k) as [_|Hne]; [|congruence]. rewrite Nat.eqb_refl, Z.eqb_refl. simpl.
    rewrite (at_point_nth _ _ _ _ _ Hphi Hx) in Hfj. injection Hfj as <-. reflexivity.
  - intros Hno. destruct (kind_eq_dec k' k) as [->|_]; [|reflexivity].
    destruct (Nat.eqb j' j && (u =? t)) eqn:E'; [|reflexivity]. exfalso. apply Hno. apply andb_prop in E'. destruct E' as [E1 E2].
    apply Nat.eqb_eq in E1. assert (u = t) by lia. auto.
Qed.
(** *** Refreshing the stored results of one basis set, of all basis sets *)
Lemma refresh_one : forall bs zero one s k phis xs j, proper_basis bs -> series_over bs zero one s -> implements k bs phis ->
  List.length xs = List.length bs -> (j < List.length bs)%nat ->
  exists s', srun (SBasis1 k xs (Z.of_nat j)) s = RRet s' tt /\ series_over bs zero one s' /\
    updates (fun k' j' u => k' = k /\ j' = j) (sizes bs) (at_point phis xs) s s'.
Proof.
  intros bs zero one s k phis xs j Hp Ho Himp Hxs Hj.
  pose proof (over_inv _ _ _ _ Hp Ho) as Hi. destruct Hp as (_ & Hfit). pose proof (Forall2_len _ _ _ _ _ Himp) as Hl.
  destruct (nth_error bs j) as [b|] eqn:Eb; [|apply nth_error_None in Eb; lia].
  destruct (nth_error xs j) as [x|] eqn:Ex; [|apply nth_error_None in Ex; lia].
  destruct (nth_error phis j) as [phi|] eqn:Ep; [|apply nth_error_None in Ep; lia].
  destruct (eval_step bs zero one s k xs j b x (fun t => phi t x) Hi Eb) as (s' & E & Hi' & Hf & Hn & Hot); auto.
  - eapply sizes_bound; eauto.
  - intros t Ht. exact (Forall2_nth_error _ _ _ _ _ _ _ _ Himp Eb Ep t x Ht).
  - assert (Er : srun (SBasis1 k xs (Z.of_nat j)) s = RRet s' tt) by (destruct k; exact E).
    exists s'. split; [exact Er|]. split; [eapply SRet; eauto|].
    destruct Hf as (F1 & F2 & F3 & F4). split; [auto|]. split; [unfold se_get; now rewrite F2|].
    split; [intros; unfold se_get_grad; now rewrite F3|]. split; [intros; unfold se_get_hess; now rewrite F4|].
    intros k' j' n f u Hd Hfj Hu. split.
    + intros (-> & ->). unfold sizes in Hd. rewrite (map_nth_error bs_size _ _ Eb) in Hd. injection Hd as <-.
      rewrite (at_point_nth _ _ _ _ _ Ep Ex) in Hfj. injection Hfj as <-. apply Hn. auto.
    + intros Hno. apply Hot. destruct (kind_eq_dec k' k) as [->|Hk]; [right|left; auto].
      destruct (Nat.eq_dec j' j) as [->|Hne]; [tauto|lia].
Qed.

Lemma refresh_all : forall bs zero one s k phis xs, proper_basis bs -> series_over bs zero one s -> implements k bs phis ->
  List.length xs = List.length bs ->
  exists s', srun (SBasis k xs) s = RRet s' tt /\ series_over bs zero one s' /\
    updates (fun k' j' u => k' = k) (sizes bs) (at_point phis xs) s s'.
Proof.
  intros bs zero one s k phis xs Hp Ho Himp Hxs.
  pose proof (over_inv _ _ _ _ Hp Ho) as Hi. destruct Hp as (_ & Hfit).
  destruct (eval_basis_ok bs zero one k phis xs s Hfit Hi Himp Hxs) as (s' & E & Hi' & Hf & (_ & Hn) & Hot).
  assert (Er : srun (SBasis k xs) s = RRet s' tt) by (destruct k; exact E).
  exists s'. split; [exact Er|]. split; [eapply SRet; eauto|].
  destruct Hf as (F1 & F2 & F3 & F4). split; [auto|]. split; [unfold se_get; now rewrite F2|].
  split; [intros; unfold se_get_grad; now rewrite F3|]. split; [intros; unfold se_get_hess; now rewrite F4|].
  intros k' j' n f u Hd Hfj Hu. split.
  - intros ->. eapply Hn; eauto.
  - intros Hno. apply Hot. auto.
Qed.
End Product.
