(** Series: invariant of every history, and the effect of each evaluation. *)
From Coq Require Import ZArith List Bool Lia ZifyBool.
From Verif Require Import Model.Outcome Model.PNDArray Model.PSimple Model.BasisSet Model.Series Spec.Tensor Spec.NDHistory Spec.Basis
  Spec.Series Proofs.OutcomeP Proofs.PNDArrayP Proofs.BasisP Proofs.SeriesSumP.
Import ListNotations.
Local Open Scope Z_scope.

Lemma Forall2_len : forall (B C : Type) (R : B -> C -> Prop) l l', Forall2 R l l' -> List.length l = List.length l'.
Proof. intros B C R l l' H. induction H; simpl; auto. Qed.

(** ** Predicates kept by every normal or exceptional end of a call *)
Definition post {S B : Type} (P : S -> Prop) (r : res S B) : Prop :=
  match r with RRet s _ => P s | RThrow s _ => P s | _ => True end.
Definition keeps {S B : Type} (P : S -> Prop) (m : M S B) : Prop := forall s, P s -> post P (m s).

Lemma keeps_ret : forall S B (P : S -> Prop) (b : B), keeps P (mret b).
Proof. intros S B P b s H. exact H. Qed.
Lemma keeps_lift : forall S B (P : S -> Prop) (o : outcome B), keeps P (mlift o).
Proof. intros S B P [] s H; simpl; auto. Qed.
Lemma keeps_get : forall S B (P : S -> Prop) (k : S -> M S B), (forall s, P s -> post P (k s s)) -> keeps P (mbind mget k).
Proof. intros S B P k H s Hs. exact (H s Hs). Qed.
Lemma keeps_bind : forall S B C (P : S -> Prop) (m : M S B) (k : B -> M S C),
  keeps P m -> (forall b, keeps P (k b)) -> keeps P (mbind m k).
Proof.
  intros S B C P m k Hm Hk s Hs. unfold mbind. specialize (Hm s Hs). destruct (m s); simpl in *; auto. now apply Hk.
Qed.
Lemma keeps_mfor : forall S I (P : S -> Prop) (l : list I) (f : I -> M S unit), (forall i, keeps P (f i)) -> keeps P (mfor l f).
Proof.
  intros S I P l f H. induction l as [|i l IH]; simpl; [apply keeps_ret|]. apply keeps_bind; auto.
Qed.

Section Series.
Context {S : SerOps}.
Local Notation X := (sx S).
Local Notation A := (sa S).
Implicit Types (s : series S) (b : bset X A) (bs : list (bset X A)).

(** Same functions and number of terms. *)
Definition same_set b b' : Prop :=
  (forall k t x, fun_of b' k t x = fun_of b k t x) /\
  (forall k, List.length (cache b' k) = Z.to_nat (bs_size b)).
Definition entry_of b (p : option (bset X A)) : Prop := exists b', p = Some b' /\ same_set b b'.

(** The invariant of a series over [bs]. *)
Record inv bs (zero one : A) s : Prop := mkInv {
  inv_wf : nd_wf (se_coeff s);
  inv_dim : nd_dim (se_coeff s) = sizes bs;
  inv_zero : se_zero s = zero;
  inv_one : se_one s = one;
  inv_basis : Forall2 entry_of bs (se_basis s);
  inv_grad : List.length (se_grad s) = List.length bs;
  inv_hess : List.length (se_hess s) = List.length bs;
  inv_rows : Forall (fun row => List.length row = List.length bs) (se_hess s)
}.

Lemma size_nonneg : forall b, 0 <= bs_size b.
Proof. intros b. unfold bs_size. lia. Qed.

Lemma inv_order : forall bs zero one s, inv bs zero one s -> nd_order (se_coeff s) = Z.of_nat (List.length bs).
Proof.
  intros bs zero one s H. destruct (nd_wf_view _ _ (inv_wf _ _ _ _ H)) as (-> & _).
  rewrite (inv_dim _ _ _ _ H). unfold sizes. now rewrite map_length.
Qed.

Lemma zseq_order : forall bs zero one s, inv bs zero one s ->
  zseq (nd_order (se_coeff s)) = map Z.of_nat (seq 0 (List.length bs)).
Proof. intros. unfold zseq. erewrite inv_order by eauto. now rewrite Nat2Z.id. Qed.

(** *** The basis-set methods *)
Definition pb_eval_k (k : kind) (x : X) : M (option (bset X A)) (list A) :=
  match k with KVal => pb_eval x | KGrad => pb_eval_grad x | KHess => pb_eval_hess x end.
Definition pb_call_k (k : kind) (t : Z) (x : X) : M (option (bset X A)) A :=
  match k with KVal => pb_call t x | KGrad => pb_call_grad t x | KHess => pb_call_hess t x end.

Lemma pb_eval_k_eq : forall k x b, pb_eval_k k x (Some b) =
  match bevaluate_all k x b with
  | RRet b' a => RRet (Some b') a | RThrow b' e => RThrow (Some b') e | RExit => RExit | RUB r => RUB r | RNoFuel => RNoFuel
  end.
Proof. intros [] x b; reflexivity. Qed.
Lemma pb_call_k_eq : forall k t x b, pb_call_k k t x (Some b) =
  match bevaluate k (int_to_size t) x b with
  | RRet b' a => RRet (Some b') a | RThrow b' e => RThrow (Some b') e | RExit => RExit | RUB r => RUB r | RNoFuel => RNoFuel
  end.
Proof. intros [] t x b; reflexivity. Qed.

Lemma same_set_cache : forall b b' k l, same_set b b' -> List.length l = Z.to_nat (bs_size b) -> same_set b (set_cache b' k l).
Proof.
  intros b b' k l (Hf & Hl) H. split.
  - intros. rewrite fun_of_set. apply Hf.
  - intros k'. destruct (kind_eq_dec k' k) as [->|Hk]; [now rewrite cache_set_same|now rewrite cache_set_other].
Qed.

Lemma keeps_eval_k : forall k x b, keeps (entry_of b) (pb_eval_k k x).
Proof.
  intros k x b p (b' & -> & Hs). pose proof Hs as (Hf & Hl). rewrite pb_eval_k_eq, bevaluate_all_eq.
  rewrite (bs_size_cache b' (bs_size b)) by (auto; apply size_nonneg). unfold zseq.
  pose proof (sweep k x (Z.to_nat (bs_size b)) 0 b') as Hsw. rewrite Hl in Hsw. specialize (Hsw ltac:(lia)).
  match goal with
  | H : match ?r with _ => _ end |- _ => destruct r as [b1|b1 e1| | |]
  end; simpl; auto.
  - destruct Hsw as [(l & -> & Hll & _) _]. eexists; split; [reflexivity|]. apply same_set_cache; auto. now rewrite Hll.
  - destruct Hsw as (l & -> & Hll & _). eexists; split; [reflexivity|]. apply same_set_cache; auto. now rewrite Hll.
Qed.

Lemma keeps_call_k : forall k t x b, keeps (entry_of b) (pb_call_k k t x).
Proof.
  intros k t x b p (b' & -> & Hs). pose proof Hs as (Hf & Hl). rewrite pb_call_k_eq, bevaluate_eq.
  destruct (fun_of b' k (int_to_size t) x) as [a|e| | |]; simpl; auto.
  - unfold vset. destruct ((0 <=? int_to_size t) && (int_to_size t <? Z.of_nat (List.length (cache b' k)))); simpl; auto.
    eexists; split; [reflexivity|]. apply same_set_cache; auto. now rewrite length_lset.
  - exists b'. auto.
Qed.

Lemma keeps_on_basis : forall bs zero one B i (m : M (option (bset X A)) B),
  (forall b, keeps (entry_of b) m) -> keeps (inv bs zero one) (on_basis i m).
Proof.
  intros bs zero one B i m Hm s H. unfold on_basis, on_elem.
  destruct (vget (se_basis s) i) as [p| | | |] eqn:E; simpl; auto.
  - apply vget_some in E. destruct E as [Hi E].
    destruct (nth_error bs (Z.to_nat i)) as [b|] eqn:Eb.
    + assert (Hp : entry_of b p).
      { pose proof (inv_basis _ _ _ _ H) as HF. revert Eb E. generalize (Z.to_nat i). clear -HF.
        induction HF as [|b0 p0 l l' H0 HF IH]; intros [|n] Eb E; simpl in *; try discriminate; [congruence|eauto]. }
      specialize (Hm b p Hp).
      assert (HF : forall p', entry_of b p' -> Forall2 entry_of bs (lset (se_basis s) (Z.to_nat i) p')).
      { intros p' Hp'. pose proof (inv_basis _ _ _ _ H) as HF. revert Eb. generalize (Z.to_nat i). clear - HF Hp'.
        induction HF as [|b0 p0 l l' H0 HF IH]; intros [|n] Eb; simpl in *; try discriminate.
        - constructor; auto. congruence.
        - constructor; auto. }
      destruct (m p); simpl in *; auto; destruct H; constructor; simpl; auto.
    + apply nth_error_None in Eb. pose proof (Forall2_len _ _ _ _ _ (inv_basis _ _ _ _ H)) as Hl.
      assert (Z.to_nat i < List.length (se_basis s))%nat by (apply nth_error_Some; congruence). lia.
  - unfold vget in E. destruct (0 <=? i); [destruct (nth_error _ _)|]; discriminate.
Qed.

Ltac keeper :=
  repeat first
   [ apply keeps_ret | apply keeps_lift
   | apply keeps_on_basis; intros; first [apply (keeps_eval_k KVal)|apply (keeps_eval_k KGrad)|apply (keeps_eval_k KHess)
       |apply (keeps_call_k KVal)|apply (keeps_call_k KGrad)|apply (keeps_call_k KHess)]
   | apply keeps_mfor; intros
   | apply keeps_bind; [|intros] ].

Lemma keeps_mget : forall T (P : T -> Prop), keeps P (@mget T).
Proof. intros T P s H. exact H. Qed.

Lemma keeps_eval_basis : forall bs zero one x, keeps (inv bs zero one) (se_eval_basis x).
Proof. intros. unfold se_eval_basis. apply keeps_bind; [apply keeps_mget|intros]. keeper. Qed.
Lemma keeps_eval_basis_grad : forall bs zero one x, keeps (inv bs zero one) (se_eval_basis_grad x).
Proof. intros. unfold se_eval_basis_grad. apply keeps_bind; [apply keeps_mget|intros]. keeper. Qed.
Lemma keeps_eval_basis_hess : forall bs zero one x, keeps (inv bs zero one) (se_eval_basis_hess x).
Proof. intros. unfold se_eval_basis_hess. apply keeps_bind; [apply keeps_mget|intros]. keeper. Qed.

Lemma post_bind : forall T B C (P : T -> Prop) (m : M T B) (k : B -> M T C) (s : T),
  post P (m s) -> (forall (s' : T) (b : B), P s' -> m s = RRet s' b -> post P (k b s')) -> post P (mbind m k s).
Proof. intros T B C P m k s H1 H2. unfold mbind. destruct (m s) eqn:E; simpl in *; auto. Qed.

Lemma mlift_ret : forall T B (o : outcome B) (s s' : T) (b : B), mlift o s = RRet s' b -> s' = s /\ o = Ok b.
Proof. intros T B [] s s' b0 H; simpl in H; try discriminate. injection H as <- <-. auto. Qed.

Lemma keeps_calc_val : forall bs zero one, keeps (inv bs zero one) calc_val.
Proof.
  intros bs zero one s H. unfold calc_val. apply post_bind; [exact H|]. intros s1 s2 _ E. injection E as <- <-.
  apply post_bind; [now apply keeps_lift|]. intros s1 a _ E. apply mlift_ret in E as [-> _].
  simpl. destruct H; constructor; auto.
Qed.

Lemma keeps_calc_grad : forall bs zero one di, keeps (inv bs zero one) (calc_grad_val di).
Proof.
  intros bs zero one di s H. unfold calc_grad_val. apply post_bind; [exact H|]. intros s1 s2 _ E. injection E as <- <-.
  apply post_bind; [now apply keeps_lift|]. intros s1 a0 _ E. apply mlift_ret in E as [-> _].
  apply post_bind; [now apply keeps_lift|]. intros s1 a _ E. apply mlift_ret in E as [-> _].
  apply post_bind; [now apply keeps_lift|]. intros s1 g _ E. apply mlift_ret in E as [-> E].
  apply vset_inv in E as [_ ->]. simpl. destruct H; constructor; auto. simpl. now rewrite length_lset.
Qed.

Lemma Forall_lset : forall (B : Type) (P : B -> Prop) l n (b : B), Forall P l -> P b -> Forall P (lset l n b).
Proof. intros B P l n b H Hb. revert n. induction H; intros [|n]; simpl; auto. Qed.

Lemma Forall_nth : forall (B : Type) (P : B -> Prop) l n (b : B), Forall P l -> nth_error l n = Some b -> P b.
Proof. intros B P l n b H. revert n. induction H; intros [|n] E; simpl in *; try discriminate; [congruence|eauto]. Qed.

Lemma keeps_calc_hess : forall bs zero one di dj, keeps (inv bs zero one) (calc_hess_val di dj).
Proof.
  intros bs zero one di dj s H. unfold calc_hess_val. apply post_bind; [exact H|]. intros s1 s2 _ E. injection E as <- <-.
  apply post_bind; [now apply keeps_lift|]. intros s1 row _ E. apply mlift_ret in E as [-> Er].
  apply post_bind; [now apply keeps_lift|]. intros s1 r0 _ E. apply mlift_ret in E as [-> _].
  apply post_bind; [now apply keeps_lift|]. intros s1 a _ E. apply mlift_ret in E as [-> _].
  apply post_bind; [now apply keeps_lift|]. intros s1 row' _ E. apply mlift_ret in E as [-> E1].
  apply post_bind; [now apply keeps_lift|]. intros s1 h _ E. apply mlift_ret in E as [-> E].
  apply vset_inv in E as [_ ->]. apply vset_inv in E1 as [_ ->]. apply vget_some in Er as [_ Er].
  simpl. destruct H as [? ? ? ? ? ? ? Hr]; constructor; auto; simpl.
  - now rewrite length_lset.
  - apply Forall_lset; auto. rewrite length_lset. exact (Forall_nth _ _ _ _ _ Hr Er).
Qed.

Lemma keeps_getter : forall bs zero one x i, keeps (inv bs zero one) (getter_call x i).
Proof. intros. unfold getter_call. apply keeps_bind; [apply keeps_mget|intros]. keeper. Qed.

Lemma keeps_fresh : forall bs zero one js (ev : Z -> Z -> X -> M (series S) A) t x tmp,
  (forall j u v, keeps (inv bs zero one) (ev j u v)) -> keeps (inv bs zero one) (fresh_product js ev t x tmp).
Proof.
  intros bs zero one js ev t x tmp Hev. revert tmp. induction js as [|j js IH]; intros tmp; simpl; [apply keeps_ret|].
  apply keeps_bind; [apply keeps_lift|intros]. apply keeps_bind; [apply keeps_lift|intros]. apply keeps_bind; auto.
Qed.

Lemma keeps_on_coeff : forall bs zero one B (m : M (nd A) B),
  keeps (fun c => nd_wf c /\ nd_dim c = sizes bs) m -> keeps (inv bs zero one) (on_coeff m).
Proof.
  intros bs zero one B m Hm s H. unfold on_coeff.
  specialize (Hm (se_coeff s) (conj (inv_wf _ _ _ _ H) (inv_dim _ _ _ _ H))).
  destruct (m (se_coeff s)); simpl in *; auto; destruct Hm as [H1 H2]; destruct H; constructor; auto.
Qed.

Lemma nd_set_dim : forall (c c' : nd A) i a, nd_set c i a = Ok c' -> nd_dim c' = nd_dim c.
Proof.
  intros c c' i a H. unfold nd_set in H. apply obind_ok in H as (v & _ & H). injection H as <-. reflexivity.
Qed.

Lemma keeps_nd_set : forall bs i a, keeps (fun c => nd_wf c /\ nd_dim c = sizes bs) (lift_set (fun c : nd A => nd_set c i a)).
Proof.
  intros bs i a c [H1 H2]. unfold lift_set. destruct (nd_set c i a) as [c'| | | |] eqn:E; simpl; auto.
  split; [eapply nd_set_wf; eauto|]. rewrite (nd_set_dim _ _ _ _ E). auto.
Qed.

Lemma keeps_nd_put : forall bs t a, keeps (fun c => nd_wf c /\ nd_dim c = sizes bs) (lift_set (fun c : nd A => nd_put c t a)).
Proof.
  intros bs t a c [H1 H2]. unfold lift_set. destruct (nd_put c t a) as [c'| | | |] eqn:E; simpl; auto.
  unfold nd_put in E. apply obind_ok in E as (i & _ & E).
  split; [eapply nd_set_wf; eauto|]. rewrite (nd_set_dim _ _ _ _ E). auto.
Qed.

Lemma keeps_run : forall bs zero one c, keeps (inv bs zero one) (srun c).
Proof.
  intros bs zero one c. destruct c as [x|x i|x i j|x|x|x|k x|k x i|k i t x|t x|t x i|t x i j|i a|t a]; simpl.
  - apply keeps_bind; [|intros; apply keeps_ret]. apply keeps_bind; [apply keeps_eval_basis|intros; apply keeps_calc_val].
  - apply keeps_bind; [|intros; apply keeps_ret]. apply keeps_bind; [apply keeps_mget|intros s].
    apply keeps_bind; [|intros; apply keeps_calc_grad]. apply keeps_mfor. intros u. destruct (u =? i); [keeper|apply keeps_getter].
  - apply keeps_bind; [|intros; apply keeps_ret]. apply keeps_bind; [apply keeps_mget|intros s].
    apply keeps_bind; [|intros; apply keeps_calc_hess]. apply keeps_mfor. intros u.
    destruct ((u =? i) || (u =? j)); [destruct (i =? j); keeper|apply keeps_getter].
  - unfold se_eval. apply keeps_bind; [|intros; apply keeps_ret].
    apply keeps_bind; [apply keeps_eval_basis|intros; apply keeps_calc_val].
  - unfold se_eval_grad. apply keeps_bind; [apply keeps_eval_basis|intros]. apply keeps_bind; [apply keeps_eval_basis_grad|intros].
    apply keeps_bind; [apply keeps_mget|intros]. apply keeps_mfor; intros. apply keeps_bind; [apply keeps_calc_grad|intros; apply keeps_ret].
  - unfold se_eval_hess. apply keeps_bind; [apply keeps_eval_basis|intros]. apply keeps_bind; [apply keeps_eval_basis_grad|intros].
    apply keeps_bind; [apply keeps_eval_basis_hess|intros].
    apply keeps_bind; [apply keeps_mget|intros]. apply keeps_mfor; intros. apply keeps_mfor; intros.
    apply keeps_bind; [apply keeps_calc_hess|intros; apply keeps_ret].
  - destruct k; [apply keeps_eval_basis|apply keeps_eval_basis_grad|apply keeps_eval_basis_hess].
  - destruct k; unfold se_eval_basis1, se_eval_basis_grad1, se_eval_basis_hess1; keeper.
  - destruct k; unfold se_basis1, se_basis_grad1, se_basis_hess1; keeper.
  - apply keeps_bind; [|intros; apply keeps_ret]. apply keeps_bind; [apply keeps_mget|intros]. apply keeps_fresh; intros. keeper.
  - apply keeps_bind; [|intros; apply keeps_ret]. apply keeps_bind; [apply keeps_mget|intros]. apply keeps_fresh; intros.
    destruct (j =? i); keeper.
  - apply keeps_bind; [|intros; apply keeps_ret]. apply keeps_bind; [apply keeps_mget|intros]. apply keeps_fresh; intros.
    destruct ((j0 =? i) || (j0 =? j)); [destruct (i =? j)|]; keeper.
  - apply keeps_on_coeff, keeps_nd_set.
  - apply keeps_on_coeff, keeps_nd_put.
Qed.

(** ** Construction *)
Lemma reachable_same : forall d b, reachable_bset d b -> same_set b b /\ 0 <= bs_size b < size_too_big.
Proof.
  intros d b (F & n & m & H). apply history_agrees_basis in H. destruct H as (Hn & Hf & Hl & _).
  assert (Hs : bs_size b = n) by (apply bs_size_cache; [apply Hl|lia]). rewrite Hs. split; auto.
  split; auto. intros k. rewrite Hs. apply Hl.
Qed.

Lemma se_dims_ok : forall bs, Forall (fun n => n <= int_max) (sizes bs) -> se_dims (map Some bs) = Ok (sizes bs).
Proof.
  intros bs H. unfold se_dims.
  assert (Hg : forall bs acc, Forall (fun n => n <= int_max) (sizes bs) ->
     ofold (fun dim (b : option (bset X A)) => let* n := pb_size b in Ok (dim ++ [n])) (map Some bs) acc = Ok (acc ++ sizes bs)).
  { clear. induction bs as [|b bs IH]; intros acc H; simpl.
    - now rewrite app_nil_r.
    - simpl in H. inversion H as [|? ? Hb Hr]; subst. unfold size_to_int. pose proof (size_nonneg b). unfold int_max in Hb.
      rewrite Z.mod_small by lia. replace (bs_size b <? 2 ^ 31) with true by lia. rewrite IH by auto.
      now rewrite <- app_assoc. }
  now rewrite Hg.
Qed.

Lemma assign_all : forall bs (acc : list (option (bset X A))),
  ofold (fun l (p : option (bset X A)) => let* b' := pb_assign p in Ok (l ++ [b'])) (map Some bs) acc = Ok (acc ++ map Some bs).
Proof.
  induction bs as [|b bs IH]; intros acc; simpl; [now rewrite app_nil_r|]. rewrite IH. now rewrite <- app_assoc.
Qed.

Lemma set_ok : forall bs s, proper_basis bs ->
  exists s0, se_set (map Some bs) s = RRet s0 tt /\ inv bs (se_zero s) (se_one s) s0 /\
    (forall t, valid_index (sizes bs) t -> nd_at (se_coeff s0) t = Ok (sdflt S)) /\ se_val s0 = Some (se_zero s).
Proof.
  intros bs s (Hr & Hu & Hm). unfold se_set, mbind, mmod, mget, mlift, mput, se_clear.
  rewrite se_dims_ok by auto. rewrite nd_make_ok by auto. rewrite assign_all. simpl.
  eexists; split; [reflexivity|]. simpl.
  assert (Hls : List.length (sizes bs) = List.length bs) by (unfold sizes; apply map_length).
  set (c := mkNd (sizes bs) (strides (sizes bs)) (repeat (sdflt S) (Z.to_nat (zprod (sizes bs))))
                 (Z.of_nat (List.length (sizes bs))) (zprod (sizes bs))).
  assert (Hwf : nd_wf c).
  { pose proof (nd_resize_wf _ (sdflt S) (sizes bs) Hu []) as Hw. unfold vresize in Hw. rewrite firstn_nil in Hw. simpl in Hw.
    now rewrite Nat.sub_0_r in Hw. }
  split.
  - constructor; simpl; auto.
    + clear - Hr. induction Hr as [|b bs Hb Hr IH]; simpl; constructor; auto. exists b. split; auto.
      apply (reachable_same (sdflt S)); auto.
    + rewrite repeat_length, Nat2Z.id. auto.
    + rewrite repeat_length, Nat2Z.id. auto.
    + apply Forall_forall. intros row Hin. apply repeat_spec in Hin. subst row. rewrite repeat_length, Nat2Z.id. auto.
  - split; auto. intros t Ht. destruct (nd_at_wf _ c t Hwf) as (a & Ha & Hg); auto.
    + simpl. destruct Hu; auto.
    + rewrite Ha. f_equal. unfold nd_get in Hg. apply vget_some in Hg as [_ Hg]. simpl in Hg.
      apply nth_error_In, repeat_spec in Hg. auto.
Qed.

Lemma over_inv : forall bs zero one s, proper_basis bs -> series_over bs zero one s -> inv bs zero one s.
Proof.
  intros bs zero one s Hp H. induction H as [s s0 Hz Ho Hs|s c s' H IH Hr|s c s' e H IH Hr].
  - destruct (set_ok bs s Hp) as (s1 & E & Hi & _). rewrite Hs in E. injection E as <-. subst. exact Hi.
  - pose proof (keeps_run bs zero one c s IH) as Hk. rewrite Hr in Hk. exact Hk.
  - pose proof (keeps_run bs zero one c s IH) as Hk. rewrite Hr in Hk. exact Hk.
Qed.

End Series.
