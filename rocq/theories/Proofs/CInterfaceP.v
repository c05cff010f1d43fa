(** Lemmas about the C interface. *)
From Coq Require Import ZArith List Ascii String Lia.
From Verif Require Import Model.Outcome Model.Num Model.PNDArray Model.BasisSet Model.Series Model.CInterface Spec.Tensor Spec.NDHistory Spec.Basis
  Spec.Series Spec.CInterface Proofs.OutcomeP Proofs.PNDArrayP Proofs.BasisP Proofs.SeriesP Proofs.SeriesEvalP.
Import ListNotations.
Local Open Scope Z_scope.

(** ** Names *)
Lemma strcpy_fits : forall src buffer, ~ In zero src -> (List.length src < List.length buffer)%nat ->
  strcpy src buffer = Ok (src ++ zero :: skipn (S (List.length src)) buffer).
Proof.
  induction src as [|c src IH]; intros [|b buffer] Hn Hl; simpl in *; try lia; [reflexivity|].
  destruct (Ascii.eqb_spec c zero) as [->|_]; [exfalso; auto|]. rewrite IH by (auto || lia). reflexivity.
Qed.
Lemma strcpy_short : forall src buffer, ~ In zero src -> (List.length buffer <= List.length src)%nat -> strcpy src buffer = UB UBOutOfBounds.
Proof.
  induction src as [|c src IH]; intros [|b buffer] Hn Hl; simpl in *; try lia; try reflexivity.
  destruct (Ascii.eqb_spec c zero) as [->|_]; [exfalso; auto|]. rewrite IH by (auto || lia). reflexivity.
Qed.
Lemma strcpy_cut : forall src tail buffer, ~ In zero src -> strcpy (src ++ zero :: tail) buffer = strcpy src buffer.
Proof.
  induction src as [|c src IH]; intros tail [|b buffer] Hn; try reflexivity.
  simpl. destruct (Ascii.eqb_spec c zero) as [->|_]; [reflexivity|]. simpl in Hn. rewrite IH by auto. reflexivity.
Qed.

Lemma length_list_ascii : forall s, List.length (list_ascii_of_string s) = String.length s.
Proof. induction s; simpl; auto. Qed.

Lemma name_fits : forall s buffer, plain_text s -> (String.length s < List.length buffer)%nat ->
  exists buffer', c_text s buffer = Ok buffer' /\ spells buffer' s (skipn (S (String.length s)) buffer).
Proof.
  intros s buffer Hp Hl. unfold c_text. rewrite strcpy_fits by (auto; rewrite length_list_ascii; auto). eexists; split; [reflexivity|].
  unfold spells. now rewrite length_list_ascii.
Qed.
Lemma name_overruns : forall s buffer, plain_text s -> (List.length buffer <= String.length s)%nat -> c_text s buffer = UB UBOutOfBounds.
Proof. intros s buffer Hp Hl. apply strcpy_short; auto. now rewrite length_list_ascii. Qed.

(** ** Sets from the library *)
Section Lib.
Context {O : NumOps}.
Local Notation D := (num O).
Local Notation dset := (bset (num O) (num O)).
Local Notation zero := (nofZ O 0).
Variable lib : list (bclass O).

Definition made_as (b b' : dset) : Prop := bs_name b' = bs_name b /\ bs_limit b' = bs_limit b /\ bs_fun b' = bs_fun b /\ bs_dfun b' = bs_dfun b /\ bs_ddfun b' = bs_ddfun b.

Lemma made_trans : forall a b c, made_as a b -> made_as b c -> made_as a c.
Proof. unfold made_as. intuition congruence. Qed.
Lemma made_cache : forall b k l, made_as b (set_cache b k l).
Proof. intros b []; repeat split. Qed.
Lemma made_eval : forall b k t x, keeps (made_as b) (bevaluate k t x).
Proof.
  intros b k t x c Hc. rewrite bevaluate_eq.
  destruct (fun_of c k t x); simpl; auto. destruct (vset (cache c k) t a); simpl; auto.
  eapply made_trans; [exact Hc|apply made_cache].
Qed.
Lemma made_all : forall b k x, keeps (made_as b) (bevaluate_all k x).
Proof.
  intros b k x. destruct k; unfold bevaluate_all, bs_eval, bs_eval_grad, bs_eval_hess;
  (apply keeps_bind; [apply keeps_mget|intros b0]; apply keeps_bind; [|intros; apply keeps_bind; [apply keeps_mget|intros; apply keeps_ret]];
   apply keeps_mfor; intros i; apply keeps_bind; [|intros; apply keeps_ret]).
  - exact (made_eval b KVal i x).
  - exact (made_eval b KGrad i x).
  - exact (made_eval b KHess i x).
Qed.
Lemma made_run : forall b c, keeps (made_as b) (brun zero c).
Proof.
  intros b [k t x|k x|n]; simpl.
  - apply keeps_bind; [apply made_eval|intros; apply keeps_ret].
  - apply keeps_bind; [apply made_all|intros; apply keeps_ret].
  - intros c Hc. unfold bs_resize, mbind, mget, mlift, mput. destruct (match bs_limit c with Some l => l <? n | None => false end); simpl; auto.
    destruct (size_too_big <=? n); simpl; auto.
Qed.

Definition within (n : Z) (limit : option Z) : Prop := match limit with Some l => n <= l | None => True end.

(** What is known of a set from the library. *)
Definition from_class (c : bclass O) (b : dset) : Prop :=
  bs_name b = bc_name c /\ bs_limit b = bc_limit c /\ bs_fun b = bc_fun c /\ bs_dfun b = bc_dfun c /\ bs_ddfun b = bc_ddfun c /\
  (forall N, checkout_set lib (bs_name b) N = bc_new c N) /\
  0 <= bs_size b <= int_max /\ within (bs_size b) (bs_limit b) /\ exists m, bhistory zero (terms_of (bc_fun c) (bc_dfun c) (bc_ddfun c)) b (bs_size b) m.

Lemma int_size : forall n, 0 <= n <= int_max -> int_to_size n = n /\ size_to_int n = n.
Proof.
  unfold int_max, int_to_size, size_to_int. intros n H. rewrite !Z.mod_small by lia. split; [reflexivity|].
  destruct (Z.ltb_spec n (2 ^ 31)); lia.
Qed.

Definition fresh (c : bclass O) (n : nat) : dset :=
  mkBset (bc_name c) (bc_limit c) (bc_fun c) (bc_dfun c) (bc_ddfun c) (repeat zero n) (repeat zero n) (repeat zero n).

Lemma new_cases : forall c N, 0 <= N <= int_max ->
  (within N (bc_limit c) /\ bc_new c N = Ok (fresh c (Z.to_nat N))) \/ (~ within N (bc_limit c) /\ bc_new c N = Exit).
Proof.
  intros c N H. unfold bc_new, bs_make, bs_resize, mbind, mget, mlift, mput. destruct (int_size N H) as [-> _].
  destruct (Z.leb_spec size_too_big N) as [B|_]; [unfold size_too_big, int_max in *; lia|]. cbn [bs_limit].
  assert (K : vresize zero [] (Z.to_nat N) = repeat zero (Z.to_nat N)) by (unfold vresize; rewrite firstn_nil; simpl; now rewrite Nat.sub_0_r).
  destruct (bc_limit c) as [l|] eqn:E; simpl.
  - destruct (Z.ltb_spec l N); [right; split; [lia|reflexivity]|left; split; [lia|]].
    unfold bs_store. cbn [bs_name bs_limit bs_fun bs_dfun bs_ddfun bs_val bs_gval bs_hval]. unfold fresh. rewrite K, E. reflexivity.
  - left. split; [exact I|]. unfold bs_store. cbn [bs_name bs_limit bs_fun bs_dfun bs_ddfun bs_val bs_gval bs_hval]. unfold fresh. rewrite K, E. reflexivity.
Qed.

Lemma fresh_history : forall c N, 0 <= N <= int_max -> bc_new c N = Ok (fresh c (Z.to_nat N)) ->
  bhistory zero (terms_of (bc_fun c) (bc_dfun c) (bc_ddfun c)) (fresh c (Z.to_nat N)) N nothing.
Proof.
  intros c N H E. unfold bc_new in E. destruct (int_size N H) as [R _]. rewrite R in E.
  eapply BMake; [|lia|exact E]. intros; reflexivity.
Qed.
Lemma fresh_size : forall c n, bs_size (fresh c n) = Z.of_nat n.
Proof. intros. unfold bs_size, fresh. simpl. now rewrite repeat_length. Qed.

Lemma checkout_name : forall name N b, 0 <= N <= int_max -> checkout_set lib name N = Ok b ->
  exists c, from_class c b /\ bs_size b = N.
Proof.
  intros name N b HN. assert (G : forall l, (forall M, checkout_set lib name M = checkout_set l name M) -> checkout_set l name N = Ok b ->
     exists c, from_class c b /\ bs_size b = N).
  { induction l as [|c l IH]; intros E H; simpl in H; [discriminate|].
    destruct (String.eqb_spec name (bc_name c)) as [->|Hne].
    - destruct (new_cases c N HN) as [[Hw Hm]|[_ Hm]]; rewrite Hm in H; [|discriminate]. injection H as <-.
      exists c. assert (Hs : bs_size (fresh c (Z.to_nat N)) = N) by (rewrite fresh_size; lia).
      split; [|exact Hs]. unfold from_class. rewrite Hs. repeat split; try lia; auto.
      + intros M. simpl. rewrite E. simpl. now rewrite String.eqb_refl.
      + eexists. apply fresh_history; auto.
    - apply IH; auto. intros M. rewrite E. simpl. destruct (String.eqb_spec name (bc_name c)); [contradiction|reflexivity]. }
  intros H. exact (G lib (fun _ => eq_refl) H).
Qed.

Lemma history_size : forall F (b : dset) n m, bhistory zero F b n m -> bs_size b = n /\ 0 <= n.
Proof. intros F b n m H. apply history_agrees_basis in H. destruct H as (Hn & _ & Hl & _). split; [apply bs_size_cache; [apply Hl|lia]|lia]. Qed.

Lemma library_class : forall b, library_set lib b -> exists c, from_class c b.
Proof.
  intros b H. induction H as [name N b HN Hc|b c b' H [k IH] Hn Hr|b c b' e H [k IH] Hn Hr].
  - destruct (checkout_name name N b HN Hc) as (c & Hf & _). eauto.
  - exists k. destruct IH as (I1 & I2 & I3 & I4 & I5 & I6 & I7 & I8 & m & I9).
    pose proof (made_run b c b (conj eq_refl (conj eq_refl (conj eq_refl (conj eq_refl eq_refl))))) as K. rewrite Hr in K. destruct K as (K1 & K2 & K3 & K4 & K5).
    pose proof (BRet zero _ b _ m c b' I9 (fun n' E => proj1 (Hn n' E)) Hr) as H9. destruct (history_size _ _ _ _ H9) as [Hs _].
    assert (L : 0 <= bs_size b' <= int_max /\ within (bs_size b') (bs_limit b')).
    { rewrite Hs, K2. destruct c as [k0 t x|k0 x|n']; auto. split; [apply Hn; reflexivity|].
      unfold within. simpl in Hr. unfold bs_resize, mbind, mget, mlift, mput in Hr.
      destruct (bs_limit b) as [l|]; auto. destruct (Z.ltb_spec l n'); [discriminate|lia]. }
    unfold from_class. rewrite K1, K2, K3, K4, K5. repeat split; auto; try apply L; [rewrite <- K2; apply L|]. rewrite Hs. eauto.
  - exists k. destruct IH as (I1 & I2 & I3 & I4 & I5 & I6 & I7 & I8 & m & I9).
    pose proof (made_run b c b (conj eq_refl (conj eq_refl (conj eq_refl (conj eq_refl eq_refl))))) as K. rewrite Hr in K. destruct K as (K1 & K2 & K3 & K4 & K5).
    pose proof (BThrow zero _ b _ m c b' e I9 (fun n' E => proj1 (Hn n' E)) Hr) as H9. destruct (history_size _ _ _ _ H9) as [Hs _].
    unfold from_class. rewrite K1, K2, K3, K4, K5, Hs. repeat split; auto; try apply I7. eauto.
Qed.

Lemma checkout_in : forall l name N b, checkout_set l name N = Ok b -> exists c : bclass O, In c l /\ bc_name c = name /\ bc_new c N = Ok b.
Proof.
  induction l as [|c l IH]; intros name N b H; simpl in H; [discriminate|]. destruct (String.eqb_spec name (bc_name c)) as [->|_].
  - exists c. simpl. auto.
  - destruct (IH name N b H) as (c' & Hi & Hr). exists c'. simpl. auto.
Qed.
Lemma library_in : forall b, library_set lib b -> exists c, In c lib /\ bs_name b = bc_name c /\ bs_fun b = bc_fun c /\ bs_dfun b = bc_dfun c /\
  bs_ddfun b = bc_ddfun c /\ 0 <= bs_size b <= int_max /\ within (bs_size b) (bc_limit c).
Proof.
  intros b H. destruct (library_class b H) as (c & I1 & I2 & I3 & I4 & I5 & I6 & I7 & I8 & m & I9).
  destruct (new_cases c (bs_size b) I7) as [[_ Hm]|[Hw _]]; [|rewrite <- I2 in Hw; contradiction].
  specialize (I6 (bs_size b)). rewrite Hm in I6. destruct (checkout_in _ _ _ _ I6) as (c' & Hi & Hn & Hc).
  destruct (new_cases c' (bs_size b) I7) as [[Hw' Hm']|[_ Hm']]; rewrite Hm' in Hc; [|discriminate].
  assert (K : fresh c' (Z.to_nat (bs_size b)) = fresh c (Z.to_nat (bs_size b))) by congruence.
  exists c'. split; [exact Hi|]. split; [auto|]. rewrite I3, I4, I5.
  split; [symmetry; exact (f_equal (@bs_fun _ _) K)|]. split; [symmetry; exact (f_equal (@bs_dfun _ _) K)|].
  split; [symmetry; exact (f_equal (@bs_ddfun _ _) K)|]. split; [exact I7|exact Hw'].
Qed.

(** The same set checked out again. *)
Lemma again : forall b, library_set lib b -> exists c,
  checkout_set lib (bs_name b) (size_to_int (bs_size b)) = Ok (fresh c (List.length (bs_val b))) /\
  library_set lib (fresh c (List.length (bs_val b))) /\ bs_size (fresh c (List.length (bs_val b))) = bs_size b /\
  reachable_bset zero b /\ reachable_bset zero (fresh c (List.length (bs_val b))) /\
  (forall k, terms_of (bs_fun b) (bs_dfun b) (bs_ddfun b) k = terms_of (bc_fun c) (bc_dfun c) (bc_ddfun c) k) /\
  bs_name (fresh c (List.length (bs_val b))) = bs_name b.
Proof.
  intros b H. destruct (library_class b H) as (c & I1 & I2 & I3 & I4 & I5 & I6 & I7 & I8 & m & I9). exists c.
  destruct (int_size _ I7) as [_ Hi]. rewrite Hi.
  assert (Hl : List.length (bs_val b) = Z.to_nat (bs_size b)) by (unfold bs_size; lia). rewrite Hl.
  destruct (new_cases c (bs_size b) I7) as [[Hw Hm]|[Hw _]]; [|rewrite <- I2 in Hw; contradiction].
  assert (E : checkout_set lib (bs_name b) (bs_size b) = Ok (fresh c (Z.to_nat (bs_size b)))) by (rewrite I6; exact Hm).
  split; [exact E|]. split; [eapply LibNew; [exact I7|exact E]|].
  split; [rewrite fresh_size; lia|]. split; [eexists _, _, _; exact I9|].
  split; [eexists _, _, _; apply fresh_history; [exact I7|exact Hm]|]. split; [intros []; simpl; auto|symmetry; exact I1].
Qed.
End Lib.

(** ** Series *)
Section Dsis.
Context {O : NumOps}.
Local Notation S := (num_series O).
Local Notation dset := (bset (num O) (num O)).
Local Notation zero := (nofZ O 0).
Local Notation one := (nofZ O 1).
Implicit Types (bs : list dset) (s : series S).

Lemma each_loop : forall (g : dset -> outcome dset) bs pre extra acc,
  ofold (fun vec i => let* b := star (map Some (pre ++ bs) ++ extra) i in let* x := g b in Ok (vec ++ [Some x]))
    (map Z.of_nat (seq (List.length pre) (List.length bs))) acc =
  ofold (fun vec b => let* x := g b in Ok (vec ++ [Some x])) bs acc.
Proof.
  intros g. induction bs as [|b bs IH]; intros pre extra acc; [reflexivity|].
  cbn [List.length seq map ofold].
  assert (E : star (map Some (pre ++ b :: bs) ++ extra) (Z.of_nat (List.length pre)) = Ok b).
  { unfold star. rewrite vget_nat. rewrite map_app, <- app_assoc. rewrite nth_error_app2 by (rewrite map_length; lia).
    rewrite map_length, Nat.sub_diag. reflexivity. }
  rewrite E. cbn [obind]. destruct (g b) as [x| | | |]; cbn [obind]; try reflexivity.
  specialize (IH (pre ++ [b]) extra (acc ++ [Some x])). rewrite <- app_assoc in IH. cbn [app] in IH.
  replace (List.length (pre ++ [b])) with (Datatypes.S (List.length pre)) in IH by (rewrite app_length; simpl; lia). exact IH.
Qed.
Lemma each_all : forall (g : dset -> outcome dset) bs extra,
  ofold (fun vec i => let* b := star (map Some bs ++ extra) i in let* x := g b in Ok (vec ++ [Some x]))
    (zseq (Z.of_nat (List.length bs))) [] = ofold (fun vec b => let* x := g b in Ok (vec ++ [Some x])) bs [].
Proof. intros g bs extra. unfold zseq. rewrite Nat2Z.id. exact (each_loop g bs [] extra []). Qed.
Lemma each_ok : forall (g : dset -> outcome dset) bs bs' acc, Forall2 (fun b b' => g b = Ok b') bs bs' ->
  ofold (fun vec b => let* x := g b in Ok (vec ++ [Some x])) bs acc = Ok (acc ++ map Some bs').
Proof.
  intros g bs bs' acc H. revert acc. induction H as [|b b' bs bs' Hb H IH]; intros acc; simpl; [now rewrite app_nil_r|].
  rewrite Hb. simpl. rewrite IH. now rewrite <- app_assoc.
Qed.
Lemma each_same : forall bs acc, ofold (fun vec b => let* x := (Ok b : outcome dset) in Ok (vec ++ [Some x])) bs acc = Ok (acc ++ map Some bs).
Proof. intros bs acc. apply (each_ok (fun b => Ok b)). induction bs; constructor; auto. Qed.

(** The state after set. *)
Lemma set_state : forall bs s, proper_basis (S := S) bs -> exists s0, se_set (S := S) (map Some bs) s = RRet s0 tt /\
  series_over (S := S) bs (se_zero s) (se_one s) s0 /\ has_shape s0 (sizes (S := S) bs) /\ all_zero s0 (sizes (S := S) bs) /\ se_val s0 = Some (se_zero s) /\
  (forall k j b t, nth_error bs j = Some b -> 0 <= t < bs_size b -> stored_basis (S := S) s0 k (Z.of_nat j) t = bstored b k t).
Proof.
  intros bs s Hp. destruct (set_ok (S := S) bs s Hp) as (s0 & E & Hi & Hc & Hv). exists s0. split; [exact E|]. 
  assert (Ho : series_over (S := S) bs (se_zero s) (se_one s) s0) by (eapply SBuilt; eauto). split; [exact Ho|].
  pose proof (inv_wf _ _ _ _ Hi) as Hw. pose proof (inv_dim _ _ _ _ Hi) as Hd.
  destruct (nd_wf_view _ _ Hw) as (Vo & Vv & Vg & Va). rewrite Hd in *.
  destruct Hp as (Hr & (Hne & Hu) & Hm).
  split; [|split; [|split; [exact Hv|]]].
  - split; [exact Vo|]. split; [unfold dsis_volume; rewrite Vv; destruct (sizes (S := S) bs); [contradiction Hne; reflexivity|reflexivity]|].
    intros i n Hn. unfold dsis_dim, nd_dim_i. rewrite Hd, vget_nat, Hn. reflexivity.
  - intros i Hi0. unfold dsis_get_linear_coeff.
    assert (Hvol : nd_volume (se_coeff s0) = zprod (sizes (S := S) bs)) by (rewrite Vv; destruct (sizes (S := S) bs); [contradiction Hne; reflexivity|reflexivity]).
    destruct (row_major_surj _ (se_coeff s0) i Hw) as (_ & t & Ht & Hrm); [rewrite Hvol; exact Hi0|].
    destruct (nd_at_wf _ (se_coeff s0) t Hw) as (a & Ha & Hg); [rewrite Hd; exact Hne|exact Ht|].
    rewrite Hd in Ht. rewrite (Hc t Ht) in Ha. injection Ha as <-. rewrite Hrm in Hg. exact Hg.
  - intros k j b t Hb Ht. assert (Eb : se_basis s0 = map Some bs).
    { unfold se_set, mbind, mmod, mget, mlift, mput, se_clear in E. rewrite se_dims_ok in E by auto.
      rewrite nd_make_ok in E by (split; auto). rewrite assign_all in E. simpl in E. injection E as <-. reflexivity. }
    assert (Hb' : vget (se_basis s0) (Z.of_nat j) = Ok (Some b)).
    { rewrite Eb, vget_nat. pose proof (map_nth_error Some j bs Hb) as Hm'. cbn [sx sa num_series] in *. rewrite Hm'. reflexivity. }
    rewrite (stored_entry s0 k (Z.of_nat j) t b Hb'); [symmetry; apply bstored_cache|].
    assert (Hbb : In b bs) by (eapply nth_error_In; eauto). rewrite Forall_forall in Hr. destruct (reachable_same (S := S) _ b (Hr b Hbb)) as (_ & L). clear - L Ht.
    unfold size_too_big in L. cbn [sx sa num_series] in *. lia.
Qed.

Lemma setnew_ok : forall bs extra, proper_basis (S := S) bs ->
  exists s, dsis_setnew (map Some bs ++ extra) (Z.of_nat (List.length bs)) = Ok s /\ series_over (S := S) bs zero one s /\
    has_shape s (sizes (S := S) bs) /\ all_zero s (sizes (S := S) bs) /\ se_get s = Ok zero /\
    (forall k j b t, nth_error bs j = Some b -> 0 <= t < bs_size b -> stored_basis (S := S) s k (Z.of_nat j) t = bstored b k t).
Proof.
  intros bs extra Hp. destruct (set_state bs (se_new0 (S := S) zero one) Hp) as (s0 & E & Ho & Hs & Hz & Hv & Hb). exists s0.
  split; [|repeat (split; [assumption|]); split; [unfold se_get; rewrite Hv; reflexivity|exact Hb]].
  unfold dsis_setnew. 
  pose proof (eq_trans (each_all (fun b => Ok b) bs extra) (each_same bs [])) as L. cbn [obind app] in L. rewrite L. cbn [obind]. unfold se_new. rewrite E. reflexivity.
Qed.

Lemma library_sets : forall lib bs, Forall (library_set lib) bs -> exists bs',
  Forall2 (fun b b' => checkout_set lib (bs_name b) (size_to_int (bs_size b)) = Ok b') bs bs' /\
  Forall (library_set lib) bs' /\ sizes (S := S) bs' = sizes (S := S) bs /\
  Forall (reachable_bset zero) bs /\ Forall (reachable_bset zero) bs' /\
  (forall k phis, implements (S := S) k bs phis <-> implements (S := S) k bs' phis) /\
  (forall j b' k t, nth_error bs' j = Some b' -> 0 <= t < bs_size b' -> bstored b' k t = Ok zero) /\ map (@bs_name _ _) bs' = map (@bs_name _ _) bs.
Proof.
  intros lib bs H. induction H as [|b bs Hb H IH].
  - exists []. repeat split; auto; try constructor; try (intros; inversion H0; constructor). intros [|j]; discriminate.
  - destruct IH as (bs' & I1 & I2 & I3 & I4 & I5 & I6 & I7 & I8). destruct (again lib b Hb) as (c & E & L & Es & R & R' & Hf & Hnm).
    exists (fresh c (List.length (bs_val b)) :: bs'). repeat split.
    + constructor; auto.
    + constructor; auto.
    + simpl. rewrite Es. f_equal. exact I3.
    + constructor; auto.
    + constructor; auto.
    + intros Hi. inversion Hi as [|? phi ? phis0 Hp Hi']; subst. constructor; [|apply I6; exact Hi'].
      intros t x Ht. cbn [sx sa num_series] in *. rewrite Es in Ht. specialize (Hp t x Ht). unfold fresh. cbn [bs_fun bs_dfun bs_ddfun]. rewrite <- Hf. exact Hp.
    + intros Hi. inversion Hi as [|? phi ? phis0 Hp Hi']; subst. constructor; [|apply I6; exact Hi'].
      intros t x Ht. cbn [sx sa num_series] in *. rewrite <- Es in Ht. specialize (Hp t x Ht). unfold fresh in Hp. cbn [bs_fun bs_dfun bs_ddfun] in Hp. rewrite Hf. exact Hp.
    + intros [|j] b' k t Hn Ht; [|eapply I7; eauto]. simpl in Hn. injection Hn as <-. rewrite fresh_size in Ht.
      rewrite bstored_cache. apply vget_some. split; [lia|].
      assert (Hrep : nth_error (repeat zero (List.length (bs_val b))) (Z.to_nat t) = Some zero) by (apply nth_error_repeat; lia).
      destruct k; exact Hrep.
    + cbn [map]. rewrite I8, Hnm. reflexivity.
Qed.

Lemma dsis_set_ok : forall lib bs extra s, Forall (library_set lib) bs -> fit_sizes (sizes (S := S) bs) ->
  exists s' bs', dsis_set lib (map Some bs ++ extra) (Z.of_nat (List.length bs)) s = RRet s' tt /\
    Forall (library_set lib) bs' /\ map (@bs_name _ _) bs' = map (@bs_name _ _) bs /\
    proper_basis (S := S) bs' /\ sizes (S := S) bs' = sizes (S := S) bs /\ (forall k phis, implements (S := S) k bs phis -> implements (S := S) k bs' phis) /\
    series_over (S := S) bs' (se_zero s) (se_one s) s' /\ has_shape s' (sizes (S := S) bs) /\ all_zero s' (sizes (S := S) bs) /\
    se_get s' = Ok (se_zero s) /\
    (forall k j b t, nth_error bs j = Some b -> 0 <= t < bs_size b -> stored_basis (S := S) s' k (Z.of_nat j) t = Ok zero).
Proof.
  intros lib bs extra s HL Hf. destruct (library_sets lib bs HL) as (bs' & I1 & I2 & I3 & I4 & I5 & I6 & I7 & I8).
  assert (Hp : proper_basis (S := S) bs') by (split; [exact I5|rewrite I3; exact Hf]).
  destruct (set_state bs' s Hp) as (s' & E & Ho & Hs & Hz & Hv & Hb). exists s', bs'.
  split.
  { unfold dsis_set, mbind, mlift. rewrite (each_all (fun b => checkout_set lib (bs_name b) (size_to_int (bs_size b))) bs extra).
    rewrite (each_ok _ bs bs' []) by exact I1. exact E. }
  split; [exact I2|]. split; [exact I8|]. split; [exact Hp|]. split; [exact I3|]. split; [intros; apply I6; assumption|]. split; [exact Ho|]. rewrite <- I3.
  split; [exact Hs|]. split; [exact Hz|]. split; [unfold se_get; rewrite Hv; reflexivity|].
  intros k j b t Hn Ht.
  assert (Hs' : exists b', nth_error bs' j = Some b' /\ bs_size b' = bs_size b).
  { assert (K : nth_error (sizes (S := S) bs') j = Some (bs_size b)) by (rewrite I3; unfold sizes; exact (map_nth_error _ _ _ Hn)).
    unfold sizes in K. cbn [sx sa num_series] in K. rewrite nth_error_map in K. destruct (nth_error bs' j) as [b'|]; [|discriminate]. injection K as K. eauto. }
  destruct Hs' as (b' & Hb' & Es). rewrite (Hb k j b' t Hb') by (rewrite Es; exact Ht). apply (I7 j b' k t Hb'). rewrite Es. exact Ht.
Qed.

(** A name the library does not have. *)
Lemma checkout_unknown : forall lib name N, ~ In name (map (@bc_name O) lib) -> checkout_set lib name N = Throw RuntimeError.
Proof.
  induction lib as [|c lib IH]; intros name N H; [reflexivity|]. simpl in *. destruct (String.eqb_spec name (bc_name c)) as [->|_]; [exfalso; auto|].
  apply IH. auto.
Qed.
Lemma set_unknown : forall lib bs b rest s, Forall (library_set lib) bs -> ~ In (bs_name b) (map bc_name lib) ->
  dsis_set lib (map Some (bs ++ b :: rest)) (Z.of_nat (List.length (bs ++ b :: rest))) s = RThrow s RuntimeError.
Proof.
  intros lib bs b rest s HL Hb. destruct (library_sets lib bs HL) as (bs' & I1 & _).
  unfold dsis_set, mbind, mlift. rewrite <- (app_nil_r (map Some _)).
  rewrite (each_all (fun b => checkout_set lib (bs_name b) (size_to_int (bs_size b))) (bs ++ b :: rest) []).
  assert (G : forall acc, ofold (fun vec b => let* x := checkout_set lib (bs_name b) (size_to_int (bs_size b)) in Ok (vec ++ [Some x])) (bs ++ b :: rest) acc
    = Throw RuntimeError).
  { clear HL. induction I1 as [|b0 b0' bs bs' H0 I1 IH]; intros acc; simpl.
    - rewrite checkout_unknown by exact Hb. reflexivity.
    - rewrite H0. simpl. apply IH. }
  rewrite G. reflexivity.
Qed.

(** No basis sets, NULL, and arrays that are too short. *)
Lemma zseq_nonpos : forall n, n <= 0 -> zseq n = [].
Proof. intros n H. unfold zseq. destruct n; simpl; try reflexivity; lia. Qed.
Lemma no_sets : forall lib arr order s, order <= 0 -> dsis_setnew (O := O) arr order = UB UBOutOfBounds /\ dsis_set lib arr order s = RUB UBOutOfBounds.
Proof. intros lib arr order s H. unfold dsis_setnew, dsis_set, mbind, mlift. rewrite zseq_nonpos by exact H. split; reflexivity. Qed.

Lemma each_fails : forall (g : dset -> outcome dset) pre extra m r acc,
  Forall (fun b => exists x, g b = Ok x) pre -> (0 < m)%nat ->
  star (map Some pre ++ extra) (Z.of_nat (List.length pre)) = UB r ->
  ofold (fun vec i => let* b := star (map Some pre ++ extra) i in let* x := g b in Ok (vec ++ [Some x])) (map Z.of_nat (seq 0 (List.length pre + m))) acc = UB r.
Proof.
  intros g pre extra m r acc Hg Hm Hr. 
  assert (G : forall bs p acc, p ++ bs = pre -> Forall (fun b => exists x, g b = Ok x) bs ->
    ofold (fun vec i => let* b := star (map Some pre ++ extra) i in let* x := g b in Ok (vec ++ [Some x])) (map Z.of_nat (seq (List.length p) (List.length bs + m))) acc = UB r).
  { clear acc Hg. induction bs as [|b bs IH]; intros p acc E HF.
    - rewrite app_nil_r in E. subst p. simpl. destruct m as [|m]; [lia|]. cbn [seq map ofold]. rewrite Hr. reflexivity.
    - inversion HF as [|? ? [x Hx] HF']; subst. cbn [List.length Nat.add seq map ofold].
      assert (Eb : star (map Some (p ++ b :: bs) ++ extra) (Z.of_nat (List.length p)) = Ok b).
      { unfold star. rewrite vget_nat. rewrite map_app, <- app_assoc. rewrite nth_error_app2 by (rewrite map_length; lia).
        rewrite map_length, Nat.sub_diag. reflexivity. }
      rewrite Eb. cbn [obind]. rewrite Hx. cbn [obind].
      specialize (IH (p ++ [b]) (acc ++ [Some x])). rewrite <- app_assoc in IH. cbn [app] in IH.
      replace (List.length (p ++ [b])) with (Datatypes.S (List.length p)) in IH by (rewrite app_length; simpl; lia). apply IH; auto. }
  exact (G pre [] acc eq_refl Hg).
Qed.

Lemma bad_pointer : forall lib (bs : list dset) order s, Forall (library_set lib) bs -> Z.of_nat (List.length bs) < order ->
  dsis_setnew (map Some bs) order = UB UBOutOfBounds /\ dsis_set lib (map Some bs) order s = RUB UBOutOfBounds /\
  (forall rest, dsis_setnew (map Some bs ++ None :: rest) order = UB UBNull /\ dsis_set lib (map Some bs ++ None :: rest) order s = RUB UBNull).
Proof.
  intros lib bs order s HL Ho. destruct (library_sets lib bs HL) as (bs' & I1 & _).
  assert (E : zseq order = map Z.of_nat (seq 0 (List.length bs + (Z.to_nat order - List.length bs)))) by (unfold zseq; do 2 f_equal; lia).
  assert (G1 : Forall (fun b : dset => exists x, (Ok b : outcome dset) = Ok x) bs) by (apply Forall_forall; eauto).
  assert (G2 : Forall (fun b : dset => exists x, checkout_set lib (bs_name b) (size_to_int (bs_size b)) = Ok x) bs).
  { clear - I1. induction I1; constructor; eauto. }
  unfold dsis_setnew, dsis_set, mbind, mlift. rewrite E.
  assert (R0 : star (map Some bs ++ []) (Z.of_nat (List.length bs)) = UB UBOutOfBounds).
  { unfold star. rewrite vget_nat, app_nil_r. replace (nth_error (map Some bs) (List.length bs)) with (@None (option dset)); [reflexivity|].
    symmetry. apply nth_error_None. rewrite map_length. lia. }
  assert (RN : forall rest, star (map Some bs ++ None :: rest) (Z.of_nat (List.length bs)) = UB UBNull).
  { intros rest. unfold star. rewrite vget_nat, nth_error_app2 by (rewrite map_length; lia). rewrite map_length, Nat.sub_diag. reflexivity. }
  split; [|split].
  - rewrite <- (app_nil_r (map Some bs)). pose proof (each_fails (fun b => Ok b) bs [] (Z.to_nat order - List.length bs) UBOutOfBounds [] G1 ltac:(lia) R0) as L. cbn [obind] in L. rewrite L. reflexivity.
  - rewrite <- (app_nil_r (map Some bs)). rewrite (each_fails (fun b => checkout_set lib (bs_name b) (size_to_int (bs_size b))) bs [] (Z.to_nat order - List.length bs)%nat UBOutOfBounds [] G2 ltac:(lia) R0). reflexivity.
  - intros rest. split.
    + pose proof (each_fails (fun b => Ok b) bs (None :: rest) (Z.to_nat order - List.length bs) UBNull [] G1 ltac:(lia) (RN rest)) as L. cbn [obind] in L. rewrite L. reflexivity.
    + rewrite (each_fails (fun b => checkout_set lib (bs_name b) (size_to_int (bs_size b))) bs (None :: rest) (Z.to_nat order - List.length bs)%nat UBNull [] G2 ltac:(lia) (RN rest)). reflexivity.
Qed.

(** Coefficients. *)
Lemma coeff_assigned : forall bs z o s t a, proper_basis (S := S) bs -> series_over (S := S) bs z o s -> valid_index (sizes (S := S) bs) t ->
  exists s', dsis_set_tensor_coeff t a s = RRet s' tt /\ dsis_set_linear_coeff (row_major (sizes (S := S) bs) t) a s = RRet s' tt /\
    series_over (S := S) bs z o s' /\ has_shape s' (sizes (S := S) bs) /\
    dsis_get_tensor_coeff s' t = Ok a /\ dsis_get_linear_coeff s' (row_major (sizes (S := S) bs) t) = Ok a /\
    (forall i, i <> row_major (sizes (S := S) bs) t -> dsis_get_linear_coeff s' i = dsis_get_linear_coeff s i) /\
    dsis_linear_index s' t = Ok (row_major (sizes (S := S) bs) t) /\
    (forall term, List.length term = List.length bs -> dsis_tensor_indices s' (row_major (sizes (S := S) bs) t) term = Ok t).
Proof.
  intros bs z o s t a Hp Hs Ht. pose proof (over_inv _ _ _ _ Hp Hs) as Hi. pose proof (inv_dim _ _ _ _ Hi) as Hd.
  assert (Hne : nd_dim (se_coeff s) <> []) by (rewrite Hd; apply Hp).
  assert (Ht' : valid_index (nd_dim (se_coeff s)) t) by (rewrite Hd; exact Ht).
  destruct (nd_put_wf _ (se_coeff s) t a (inv_wf _ _ _ _ Hi) Hne Ht') as (c' & Ec & Wc & Dc & Oc & Vc & A1 & A2 & _ & A4).
  destruct (linear_index_wf _ (se_coeff s) t (inv_wf _ _ _ _ Hi) Hne Ht') as [Hl Hlb].
  rewrite Hd in *.
  assert (Es : nd_set (se_coeff s) (row_major (sizes (S := S) bs) t) a = Ok c').
  { unfold nd_put in Ec. rewrite Hl in Ec. exact Ec. }
  set (s' := mkSeries c' (se_one s) (se_zero s) (se_basis s) (se_val s) (se_grad s) (se_hess s) : series S).
  assert (E1 : dsis_set_tensor_coeff t a s = RRet s' tt).
  { unfold dsis_set_tensor_coeff, on_coeff, mbind, mget, mlift, mput. change (@nd_put (num O)) with (@nd_put (sa S)). rewrite Ec. reflexivity. }
  assert (E2 : dsis_set_linear_coeff (row_major (sizes (S := S) bs) t) a s = RRet s' tt).
  { unfold dsis_set_linear_coeff, on_coeff, mbind, mget, mlift, mput. change (@nd_set (num O)) with (@nd_set (sa S)). rewrite Es. reflexivity. }
  assert (E3 : srun (S := S) (SPutCoeff (S := S) t a) s = RRet s' tt).
  { unfold srun, on_coeff, lift_set, mbind, mget, mlift, mput. cbn [sx sa num_series] in *. rewrite Ec. reflexivity. }
  exists s'. split; [exact E1|]. split; [exact E2|]. split; [exact (SRet (S := S) bs z o s _ s' Hs E3)|].
  destruct (nd_wf_view _ c' Wc) as (Vo & Vv & _ & _). rewrite Dc in Vo, Vv.
  assert (Hne' : sizes (S := S) bs <> []) by apply Hp.
  split.
  { split; [exact Vo|]. split; [unfold dsis_volume; cbn [se_coeff s']; etransitivity; [exact Vv|]; destruct (sizes (S := S) bs); [contradiction|reflexivity]|].
    intros i n Hn. unfold dsis_dim, nd_dim_i. cbn [se_coeff s']. change (vget (nd_dim c') (Z.of_nat i) = Ok n). rewrite Dc, vget_nat, Hn. reflexivity. }
  split; [exact A1|]. split; [exact A2|]. split; [exact A4|].
  assert (Hne2 : nd_dim c' <> []) by (rewrite Dc; exact Hne').
  assert (Ht2 : valid_index (nd_dim c') t) by (rewrite Dc; exact Ht).
  split.
  - destruct (linear_index_wf _ c' t Wc Hne2 Ht2) as [L _]. rewrite Dc in L. exact L.
  - intros term Hterm. pose proof (tensor_indices_wf _ c' t term Wc Hne2 Ht2) as L. rewrite Dc in L. apply L. unfold sizes. now rewrite map_length.
Qed.
End Dsis.

(** ** Checking a set out *)
Section Checkout.
Context {O : NumOps}.
Local Notation dset := (bset (num O) (num O)).

Lemma checkout_first : forall pre (c : bclass O) post N, ~ In (bc_name c) (map (@bc_name O) pre) -> checkout_set (pre ++ c :: post) (bc_name c) N = bc_new c N.
Proof.
  induction pre as [|a pre IH]; intros c post N H; simpl in *; [now rewrite String.eqb_refl|].
  destruct (String.eqb_spec (bc_name c) (bc_name a)) as [E|_]; [exfalso; auto|]. apply IH. auto.
Qed.
Lemma checkout_cases : forall pre (c : bclass O) post N, ~ In (bc_name c) (map (@bc_name O) pre) ->
  (0 <= N <= int_max -> within N (bc_limit c) -> exists b, checkout_set (pre ++ c :: post) (bc_name c) N = Ok b /\
     bs_name b = bc_name c /\ bs_size b = N /\ (forall k, terms_of (bs_fun b) (bs_dfun b) (bs_ddfun b) k = terms_of (bc_fun c) (bc_dfun c) (bc_ddfun c) k) /\
     (forall k t, 0 <= t < N -> bstored b k t = Ok (nofZ O 0))) /\
  (0 <= N <= int_max -> ~ within N (bc_limit c) -> checkout_set (pre ++ c :: post) (bc_name c) N = Exit) /\
  (- 2 ^ 31 <= N < 0 -> checkout_set (pre ++ c :: post) (bc_name c) N = Throw LengthError).
Proof.
  intros pre c post N H. rewrite checkout_first by exact H. split; [|split].
  - intros HN Hw. destruct (new_cases c N HN) as [[_ Hm]|[Hw' _]]; [|contradiction]. exists (fresh c (Z.to_nat N)). split; [exact Hm|].
    split; [reflexivity|]. split; [rewrite fresh_size; lia|]. split; [intros []; reflexivity|].
    intros k t Ht. rewrite bstored_cache. apply vget_some. split; [lia|].
    assert (Hrep : nth_error (repeat (nofZ O 0) (Z.to_nat N)) (Z.to_nat t) = Some (nofZ O 0)) by (apply nth_error_repeat; lia).
    destruct k; exact Hrep.
  - intros HN Hw. destruct (new_cases c N HN) as [[Hw' _]|[_ Hm]]; [contradiction|exact Hm].
  - intros HN. unfold bc_new, bs_make. assert (E : int_to_size N = N + 2 ^ 64) by (unfold int_to_size; symmetry; apply Z.mod_unique with (-1); lia).
    rewrite E. destruct (Z.leb_spec size_too_big (N + 2 ^ 64)) as [_|L]; [reflexivity|unfold size_too_big in L; lia].
Qed.
End Checkout.

Lemma name_cut : forall (s t : string) buffer, plain_text s -> c_text (s ++ String zero t) buffer = c_text s buffer.
Proof.
  intros s t buffer H. unfold c_text.
  assert (E : list_ascii_of_string (s ++ String zero t) = (list_ascii_of_string s ++ zero :: list_ascii_of_string t)%list).
  { induction s as [|a s IH]; simpl; [reflexivity|]. rewrite IH; [reflexivity|]. unfold plain_text in *. simpl in H. auto. }
  rewrite E. apply strcpy_cut. exact H.
Qed.
