(** Series as a client sees them: every history, every point. *)
From Coq Require Import ZArith Reals.
From Coquelicot Require Import Coquelicot.
From Coq Require Import List Bool Lia ZifyBool Lra.
From Verif Require Import Model.Outcome Model.Num Model.NumInst Model.PNDArray Model.BasisSet Model.Series Model.Iface Spec.Tensor Spec.NDHistory
  Spec.Basis Spec.Series Proofs.OutcomeP Proofs.PNDArrayP Proofs.BasisP Proofs.SeriesSumP Proofs.SeriesP Proofs.SeriesEvalP
  Proofs.SeriesOneP Proofs.SeriesRP.
Import ListNotations.
Local Open Scope Z_scope.

Section Any.
Context {S : SerOps}.
Local Notation X := (sx S).
Local Notation A := (sa S).

Lemma over_step : forall bs zero one (s s' : series S) c, series_over bs zero one s -> srun c s = RRet s' tt -> series_over bs zero one s'.
Proof. intros. eapply SRet; eauto. Qed.

(** A series can be built over proper basis sets, and all its coefficients are then the default. *)
Lemma build_ok : forall (bs : list (bset X A)) s, proper_basis bs ->
  exists s0, se_set (map Some bs) s = RRet s0 tt /\ series_over bs (se_zero s) (se_one s) s0 /\
    coefficients s0 (sizes bs) (fun _ => sdflt S) /\ se_get s0 = Ok (se_zero s).
Proof.
  intros bs s Hp. destruct (set_ok bs s Hp) as (s0 & E & Hi & Hc & Hv). exists s0. split; [auto|]. split.
  - now apply SBuilt with s.
  - split; [exact Hc|]. unfold se_get. now rewrite Hv.
Qed.

Lemma new_ok : forall (bs : list (bset X A)) zero one, proper_basis bs ->
  exists s0, se_new zero one (map Some bs) = Ok s0 /\ series_over bs zero one s0 /\
    coefficients s0 (sizes bs) (fun _ => sdflt S) /\ se_get s0 = Ok zero.
Proof.
  intros bs zero one Hp. destruct (build_ok bs (se_new0 zero one) Hp) as (s0 & E & H). exists s0. unfold se_new. rewrite E. auto.
Qed.

(** The coefficients can always be read. *)
Lemma coefficients_exist : forall bs zero one (s : series S), proper_basis bs -> series_over bs zero one s ->
  exists c, coefficients s (sizes bs) c.
Proof.
  intros bs zero one s Hp Hs. pose proof (over_inv _ _ _ _ Hp Hs) as Hi.
  exists (fun t => match nd_at (se_coeff s) t with Ok a => a | _ => sdflt S end). intros t Ht.
  destruct (nd_at_wf _ (se_coeff s) t (inv_wf _ _ _ _ Hi)) as (a & -> & _); try rewrite (inv_dim _ _ _ _ Hi); auto. apply Hp.
Qed.

(** Assigning one coefficient. *)
Lemma put_ok : forall bs zero one (s : series S) c t a, proper_basis bs -> series_over bs zero one s ->
  coefficients s (sizes bs) c -> valid_index (sizes bs) t ->
  exists s', srun (SPutCoeff t a) s = RRet s' tt /\ series_over bs zero one s' /\
    coefficients s' (sizes bs) (fun t' => if list_eq_dec Z.eq_dec t' t then a else c t').
Proof.
  intros bs zero one s c t a Hp Hs Hc Ht. pose proof (over_inv _ _ _ _ Hp Hs) as Hi.
  destruct (nd_put_wf _ (se_coeff s) t a (inv_wf _ _ _ _ Hi)) as (n & E & _ & Hd & _ & _ & Hat & _ & Ho & _);
    try rewrite (inv_dim _ _ _ _ Hi); auto; [apply Hp|].
  assert (Hr : srun (SPutCoeff t a) s = RRet (mkSeries n (se_one s) (se_zero s) (se_basis s) (se_val s) (se_grad s) (se_hess s)) tt).
  { simpl. unfold on_coeff, lift_set. rewrite E. reflexivity. }
  eexists. split; [exact Hr|]. split; [eapply SRet; eauto|].
  intros t' Ht'. simpl. destruct (list_eq_dec Z.eq_dec t' t) as [->|Hne]; [exact Hat|].
  rewrite Ho; auto. now rewrite (inv_dim _ _ _ _ Hi).
Qed.

Lemma value_ok : forall bs zero one (s : series S) c phis xs, proper_basis bs -> series_over bs zero one s ->
  coefficients s (sizes bs) c -> implements KVal bs phis -> List.length xs = List.length bs ->
  exists s', se_call xs s = RRet s' (tensor_sum S (sizes bs) c (at_point phis xs) zero) /\
    se_get s' = Ok (tensor_sum S (sizes bs) c (at_point phis xs) zero) /\
    coefficients s' (sizes bs) c /\ (forall i, se_get_grad s' i = se_get_grad s i) /\ (forall i j, se_get_hess s' i j = se_get_hess s i j).
Proof.
  intros bs zero one s c phis xs Hp Hs Hc Hphi Hx. pose proof (over_inv _ _ _ _ Hp Hs) as Hi.
  destruct (call_ok bs zero one (proj2 Hp) s c phis xs Hi Hc Hphi Hx) as (s' & E & _ & Hv & Hco & _ & _ & Hg & Hh).
  exists s'. split; [exact E|]. split; [exact Hv|]. split; [|split].
  - intros t Ht. rewrite Hco. auto.
  - intros i. unfold se_get_grad. now rewrite Hg.
  - intros i j. unfold se_get_hess. now rewrite Hh.
Qed.

Lemma gradient_ok : forall bs zero one (s : series S) c phis dphis xs, proper_basis bs -> series_over bs zero one s ->
  coefficients s (sizes bs) c -> implements KVal bs phis -> implements KGrad bs dphis -> List.length xs = List.length bs ->
  exists s', se_eval_grad xs s = RRet s' tt /\ coefficients s' (sizes bs) c /\ se_get s' = se_get s /\
    (forall i, 0 <= i < Z.of_nat (List.length bs) ->
       se_get_grad s' i = Ok (tensor_sum S (sizes bs) c (by1 (at_point phis xs) (at_point dphis xs) i) zero)).
Proof.
  intros bs zero one s c phis dphis xs Hp Hs Hc Hphi Hd Hx. pose proof (over_inv _ _ _ _ Hp Hs) as Hi.
  destruct (eval_grad_ok bs zero one (proj2 Hp) s c phis dphis xs Hi Hc Hphi Hd Hx) as (s' & E & _ & Hco & Hv & _ & Hg & _).
  exists s'. split; [exact E|]. split; [|split; [|exact Hg]].
  - intros t Ht. rewrite Hco. auto.
  - unfold se_get. now rewrite Hv.
Qed.

Lemma hessian_ok : forall bs zero one (s : series S) c phis dphis ddphis xs, proper_basis bs -> series_over bs zero one s ->
  coefficients s (sizes bs) c -> implements KVal bs phis -> implements KGrad bs dphis -> implements KHess bs ddphis ->
  List.length xs = List.length bs ->
  exists s', se_eval_hess xs s = RRet s' tt /\ coefficients s' (sizes bs) c /\ se_get s' = se_get s /\
    (forall i j, 0 <= i < Z.of_nat (List.length bs) -> 0 <= j < Z.of_nat (List.length bs) ->
       se_get_hess s' i j =
       Ok (tensor_sum S (sizes bs) c (by2 (at_point phis xs) (at_point dphis xs) (at_point ddphis xs) i j) zero)) /\
    (forall i j, 0 <= i < Z.of_nat (List.length bs) -> 0 <= j < Z.of_nat (List.length bs) ->
       se_get_hess s' i j = se_get_hess s' j i).
Proof.
  intros bs zero one s c phis dphis ddphis xs Hp Hs Hc Hphi Hd Hdd Hx. pose proof (over_inv _ _ _ _ Hp Hs) as Hi.
  destruct (eval_hess_ok bs zero one (proj2 Hp) s c phis dphis ddphis xs Hi Hc Hphi Hd Hdd Hx) as (s' & E & _ & Hco & Hv & _ & Hg).
  exists s'. split; [exact E|]. split; [|split; [|split; [exact Hg|]]].
  - intros t Ht. rewrite Hco. auto.
  - unfold se_get. now rewrite Hv.
  - intros i j H1 H2. rewrite !Hg by auto. do 2 f_equal. apply by2_sym; try lia.
    + rewrite !length_at_point; [|rewrite <- (Forall2_len _ _ _ _ _ Hd); lia|rewrite <- (Forall2_len _ _ _ _ _ Hphi); lia].
      now rewrite <- (Forall2_len _ _ _ _ _ Hd), <- (Forall2_len _ _ _ _ _ Hphi).
    + rewrite !length_at_point; [|rewrite <- (Forall2_len _ _ _ _ _ Hdd); lia|rewrite <- (Forall2_len _ _ _ _ _ Hphi); lia].
      now rewrite <- (Forall2_len _ _ _ _ _ Hdd), <- (Forall2_len _ _ _ _ _ Hphi).
Qed.

(** ** Single-call derivatives *)
Lemma single_grad_ok : forall bs zero one (s : series S) c V dphis xs i, proper_basis bs -> series_over bs zero one s ->
  coefficients s (sizes bs) c -> cached s (sizes bs) KVal V -> implements KGrad bs dphis -> List.length xs = List.length bs ->
  0 <= i < Z.of_nat (List.length bs) -> readable bs (fun j => j =? i) xs ->
  exists s', se_call_grad xs i s = RRet s' (tensor_sum S (sizes bs) c (by1 V (at_point dphis xs) i) zero).
Proof.
  intros bs zero one s c V dphis xs i Hp Hs Hc HV Hd Hx Hi Hr.
  destruct (call_grad_ok bs zero one (proj2 Hp) s c V dphis xs i (over_inv _ _ _ _ Hp Hs) Hc HV Hd Hx Hi Hr) as (s' & E & _). eauto.
Qed.

Lemma single_hess_ok : forall bs zero one (s : series S) c V dphis ddphis xs i j, proper_basis bs -> series_over bs zero one s ->
  coefficients s (sizes bs) c -> cached s (sizes bs) KVal V -> implements KGrad bs dphis -> implements KHess bs ddphis ->
  List.length xs = List.length bs -> 0 <= i < Z.of_nat (List.length bs) -> 0 <= j < Z.of_nat (List.length bs) ->
  readable bs (fun k => (k =? i) || (k =? j)) xs ->
  exists s', se_call_hess xs i j s =
    RRet s' (tensor_sum S (sizes bs) c (by2 V (at_point dphis xs) (at_point ddphis xs) i j) zero).
Proof.
  intros bs zero one s c V dphis ddphis xs i j Hp Hs Hc HV Hd Hdd Hx Hi Hj Hr.
  destruct (call_hess_ok bs zero one (proj2 Hp) s c V dphis ddphis xs i j (over_inv _ _ _ _ Hp Hs) Hc HV Hd Hdd Hx Hi Hj Hr)
    as (s' & E & _). eauto.
Qed.

Lemma single_bad : forall bs zero one (s : series S) dphis ddphis xs, int_conversion S -> proper_basis bs -> series_over bs zero one s ->
  implements KGrad bs dphis -> implements KHess bs ddphis -> List.length xs = List.length bs ->
  (forall i, ~ readable bs (fun k => k =? i) xs -> exists r, se_call_grad xs i s = RUB r) /\
  (forall i j, ~ readable bs (fun k => (k =? i) || (k =? j)) xs -> exists r, se_call_hess xs i j s = RUB r).
Proof.
  intros bs zero one s dphis ddphis xs Hcv Hp Hs Hd Hdd Hx. pose proof (over_inv _ _ _ _ Hp Hs) as Hi. split; intros.
  - eapply call_grad_bad; eauto. apply Hp.
  - eapply call_hess_bad; eauto. apply Hp.
Qed.

(** ** The general function interface *)
Lemma iface_value : forall xs (s : series S),
  pf_call (PSeriesFunction_class S) xs s = se_call xs s /\
  pf_eval (PSeriesFunction_class S) xs s = se_eval xs s /\
  pf_eval_grad (PSeriesFunction_class S) xs s = se_eval_grad xs s /\
  pf_eval_hess (PSeriesFunction_class S) xs s = se_eval_hess xs s /\
  res_outcome (pf_get (PSeriesFunction_class S) s) = se_get s.
Proof.
  intros xs s. unfold pf_call, pf_eval, pf_eval_grad, pf_eval_hess, pf_get, value_of, no_value, virtual_call. simpl find_method. cbv iota.
  unfold m_var, m_void, m_get, mbind, mret, mget, mlift. split; [|split; [|split; [|split]]].
  - destruct (se_call xs s); reflexivity.
  - destruct (se_eval xs s) as [? []| | | |]; reflexivity.
  - destruct (se_eval_grad xs s) as [? []| | | |]; reflexivity.
  - destruct (se_eval_hess xs s) as [? []| | | |]; reflexivity.
  - destruct (se_get s); reflexivity.
Qed.

Lemma iface_derivatives : forall (s : series S),
  (forall xs i, pf_call_grad (PSeriesFunction_class S) xs i s = RThrow s RuntimeError) /\
  (forall xs i j, pf_call_hess (PSeriesFunction_class S) xs i j s = RThrow s RuntimeError) /\
  (forall i, pf_get_grad (PSeriesFunction_class S) i s = RThrow s RuntimeError) /\
  (forall i j, pf_get_hess (PSeriesFunction_class S) i j s = RThrow s RuntimeError).
Proof. intros s. repeat split. Qed.

End Any.

(** ** Over the reals *)
Lemma num_conversion : forall O, int_conversion (num_series O).
Proof.
  intros O x. change (sint (num_series O) x) with (trunc_to_int O x). unfold trunc_to_int.
  destruct (if nltb O x (nofZ O 0) then _ else _) as [k|]; [|exact I].
  destruct (in_int k) eqn:E; [|exact I]. unfold in_int, INT_MIN, INT_MAX, fits_int, int_max in *. lia.
Qed.

Lemma series_fun_sum : forall dims c (phis : list (Z -> R -> R)) xs,
  tensor_sum RS dims c (at_point phis xs) 0%R = series_fun dims c phis xs.
Proof. intros. unfold series_fun. apply tensor_sum_R. Qed.

Lemma grad_sum : forall dims c (phis dphis : list (Z -> R -> R)) (xs : list R) i, 0 <= i -> List.length phis = List.length dphis ->
  List.length xs = List.length phis ->
  tensor_sum RS dims c (by1 (at_point phis xs) (at_point dphis xs) i) 0%R = series_fun dims c (swap phis i dphis) xs.
Proof. intros dims c phis dphis xs i Hi H1 H2. unfold by1. rewrite <- at_point_swap by auto. apply series_fun_sum. Qed.

Lemma hess_sum : forall dims c (phis dphis ddphis : list (Z -> R -> R)) (xs : list R) i j, 0 <= i -> 0 <= j ->
  List.length phis = List.length dphis -> List.length phis = List.length ddphis -> List.length xs = List.length phis ->
  tensor_sum RS dims c (by2 (at_point phis xs) (at_point dphis xs) (at_point ddphis xs) i j) 0%R =
  series_fun dims c (by2 phis dphis ddphis i j) xs.
Proof. intros dims c phis dphis ddphis xs i j Hi Hj H1 H2 H3. rewrite <- at_point_by2 by auto. apply series_fun_sum. Qed.

Section Real.
Context (bs : list (bset R R)) (one : R) (s : series RS) (c : list Z -> R).
Hypothesis Hp : proper_basis (S := RS) bs.
Hypothesis Hs : series_over (S := RS) bs 0%R one s.
Hypothesis Hc : coefficients s (sizes (S := RS) bs) c.
Local Notation dims := (sizes (S := RS) bs).

Lemma dims_length : List.length dims = List.length bs.
Proof. unfold sizes. apply map_length. Qed.

Lemma real_value : forall phis xs, implements (S := RS) KVal bs phis -> List.length xs = List.length bs ->
  exists s', se_call (S := RS) xs s = RRet s' (series_fun dims c phis xs) /\ se_get s' = Ok (series_fun dims c phis xs).
Proof.
  intros phis xs Hphi Hx. destruct (value_ok (S := RS) bs 0%R one s c phis xs Hp Hs Hc Hphi Hx) as (s' & E & Hv & _).
  rewrite series_fun_sum in E, Hv. eauto.
Qed.

Lemma real_grad : forall phis dphis xs, implements (S := RS) KVal bs phis -> implements (S := RS) KGrad bs dphis ->
  derivatives phis dphis -> List.length xs = List.length bs ->
  exists s', se_eval_grad (S := RS) xs s = RRet s' tt /\
    forall i, 0 <= i < Z.of_nat (List.length bs) ->
      exists g, se_get_grad s' i = Ok g /\ partial (series_fun dims c phis) i xs g.
Proof.
  intros phis dphis xs Hphi Hd Hder Hx.
  assert (L1 : List.length bs = List.length phis) by exact (Forall2_len _ _ _ _ _ Hphi).
  assert (L2 : List.length bs = List.length dphis) by exact (Forall2_len _ _ _ _ _ Hd).
  assert (M2 : List.length phis = List.length dphis) by exact (eq_trans (eq_sym L1) L2).
  assert (M1 : List.length xs = List.length phis) by exact (eq_trans Hx L1).
  destruct (gradient_ok (S := RS) bs 0%R one s c phis dphis xs Hp Hs Hc Hphi Hd Hx) as (s' & E & _ & _ & Hg).
  exists s'. split; [exact E|]. intros i Hi. eexists. split; [exact (eq_trans (Hg i Hi) (f_equal Ok (grad_sum _ _ _ _ _ _ (proj1 Hi) M2 M1)))|].
  apply series_partial; auto; rewrite ?dims_length; auto.
Qed.

Lemma real_hess : forall phis dphis ddphis xs, implements (S := RS) KVal bs phis -> implements (S := RS) KGrad bs dphis ->
  implements (S := RS) KHess bs ddphis -> derivatives phis dphis -> derivatives dphis ddphis -> List.length xs = List.length bs ->
  exists s', se_eval_hess (S := RS) xs s = RRet s' tt /\
    forall i j, 0 <= i < Z.of_nat (List.length bs) -> 0 <= j < Z.of_nat (List.length bs) ->
      exists h, se_get_hess s' i j = Ok h /\ se_get_hess s' j i = Ok h /\ second (series_fun dims c phis) i j xs h.
Proof.
  intros phis dphis ddphis xs Hphi Hd Hdd H1 H2 Hx.
  assert (L1 : List.length bs = List.length phis) by exact (Forall2_len _ _ _ _ _ Hphi).
  assert (L2 : List.length bs = List.length dphis) by exact (Forall2_len _ _ _ _ _ Hd).
  assert (M2 : List.length phis = List.length dphis) by exact (eq_trans (eq_sym L1) L2).
  assert (M1 : List.length xs = List.length phis) by exact (eq_trans Hx L1).
  assert (L3 : List.length bs = List.length ddphis) by exact (Forall2_len _ _ _ _ _ Hdd).
  assert (M3 : List.length phis = List.length ddphis) by exact (eq_trans (eq_sym L1) L3).
  destruct (hessian_ok (S := RS) bs 0%R one s c phis dphis ddphis xs Hp Hs Hc Hphi Hd Hdd Hx) as (s' & E & _ & _ & Hg & Hsym).
  exists s'. split; [exact E|]. intros i j Hi Hj. assert (Hv := eq_trans (Hg i j Hi Hj) (f_equal Ok (hess_sum _ _ _ _ _ _ _ _ (proj1 Hi) (proj1 Hj) M2 M3 M1))).
  eexists. split; [exact Hv|]. split; [exact (eq_trans (Hsym j i Hj Hi) Hv)|].
  apply series_second; auto; rewrite ?dims_length; auto.
Qed.

(** Single calls, when the values were last evaluated at the point and the other coordinates can be read as term numbers. *)
Lemma real_single_grad : forall phis dphis xs i, implements (S := RS) KVal bs phis -> implements (S := RS) KGrad bs dphis ->
  derivatives phis dphis -> List.length xs = List.length bs -> 0 <= i < Z.of_nat (List.length bs) ->
  cached s dims KVal (at_point phis xs) -> readable (S := RS) bs (fun k => k =? i) xs ->
  exists s' g, se_call_grad (S := RS) xs i s = RRet s' g /\ partial (series_fun dims c phis) i xs g.
Proof.
  intros phis dphis xs i Hphi Hd Hder Hx Hi HV Hr.
  assert (L1 : List.length bs = List.length phis) by exact (Forall2_len _ _ _ _ _ Hphi).
  assert (L2 : List.length bs = List.length dphis) by exact (Forall2_len _ _ _ _ _ Hd).
  assert (M2 : List.length phis = List.length dphis) by exact (eq_trans (eq_sym L1) L2).
  assert (M1 : List.length xs = List.length phis) by exact (eq_trans Hx L1).
  destruct (single_grad_ok (S := RS) bs 0%R one s c _ dphis xs i Hp Hs Hc HV Hd Hx Hi Hr) as (s' & E).
  exists s'; eexists. split; [exact (eq_trans E (f_equal (RRet s') (grad_sum _ _ _ _ _ _ (proj1 Hi) M2 M1)))|].
  apply series_partial; auto; rewrite ?dims_length; auto.
Qed.

Lemma real_single_hess : forall phis dphis ddphis xs i j, implements (S := RS) KVal bs phis -> implements (S := RS) KGrad bs dphis ->
  implements (S := RS) KHess bs ddphis -> derivatives phis dphis -> derivatives dphis ddphis -> List.length xs = List.length bs ->
  0 <= i < Z.of_nat (List.length bs) -> 0 <= j < Z.of_nat (List.length bs) ->
  cached s dims KVal (at_point phis xs) -> readable (S := RS) bs (fun k => (k =? i) || (k =? j)) xs ->
  exists s' h, se_call_hess (S := RS) xs i j s = RRet s' h /\ second (series_fun dims c phis) i j xs h.
Proof.
  intros phis dphis ddphis xs i j Hphi Hd Hdd H1 H2 Hx Hi Hj HV Hr.
  assert (L1 : List.length bs = List.length phis) by exact (Forall2_len _ _ _ _ _ Hphi).
  assert (L2 : List.length bs = List.length dphis) by exact (Forall2_len _ _ _ _ _ Hd).
  assert (M2 : List.length phis = List.length dphis) by exact (eq_trans (eq_sym L1) L2).
  assert (M1 : List.length xs = List.length phis) by exact (eq_trans Hx L1).
  assert (L3 : List.length bs = List.length ddphis) by exact (Forall2_len _ _ _ _ _ Hdd).
  assert (M3 : List.length phis = List.length ddphis) by exact (eq_trans (eq_sym L1) L3).
  destruct (single_hess_ok (S := RS) bs 0%R one s c _ dphis ddphis xs i j Hp Hs Hc HV Hd Hdd Hx Hi Hj Hr) as (s' & E).
  exists s'; eexists. split; [exact (eq_trans E (f_equal (RRet s') (hess_sum _ _ _ _ _ _ _ _ (proj1 Hi) (proj1 Hj) M2 M3 M1)))|].
  apply series_second; auto; rewrite ?dims_length; auto.
Qed.
End Real.

(** ** Linearity *)
Section Linear.
Context (bs : list (bset R R)) (one1 one2 one3 : R) (s1 s2 s3 : series RS) (c1 c2 : list Z -> R) (a b : R).
Context (phis dphis ddphis : list (Z -> R -> R)) (xs : list R).
Local Notation dims := (sizes (S := RS) bs).
Hypothesis Hp : proper_basis (S := RS) bs.
Hypothesis H1 : series_over (S := RS) bs 0%R one1 s1.
Hypothesis H2 : series_over (S := RS) bs 0%R one2 s2.
Hypothesis H3 : series_over (S := RS) bs 0%R one3 s3.
Hypothesis C1 : coefficients s1 dims c1.
Hypothesis C2 : coefficients s2 dims c2.
Hypothesis C3 : coefficients s3 dims (fun t => (a * c1 t + b * c2 t)%R).
Hypothesis Hphi : implements (S := RS) KVal bs phis.
Hypothesis Hd : implements (S := RS) KGrad bs dphis.
Hypothesis Hdd : implements (S := RS) KHess bs ddphis.
Hypothesis Hx : List.length xs = List.length bs.

Lemma linear_value : exists s1' s2' s3' v1 v2,
  se_call (S := RS) xs s1 = RRet s1' v1 /\ se_call (S := RS) xs s2 = RRet s2' v2 /\
  se_call (S := RS) xs s3 = RRet s3' (a * v1 + b * v2)%R.
Proof.
  destruct (value_ok (S := RS) bs 0%R one1 s1 c1 phis xs Hp H1 C1 Hphi Hx) as (t1 & E1 & _).
  destruct (value_ok (S := RS) bs 0%R one2 s2 c2 phis xs Hp H2 C2 Hphi Hx) as (t2 & E2 & _).
  destruct (value_ok (S := RS) bs 0%R one3 s3 _ phis xs Hp H3 C3 Hphi Hx) as (t3 & E3 & _).
  exists t1, t2, t3. do 2 eexists. split; [exact E1|]. split; [exact E2|]. rewrite tensor_sum_linear in E3. exact E3.
Qed.

Lemma linear_grad : exists s1' s2' s3',
  se_eval_grad (S := RS) xs s1 = RRet s1' tt /\ se_eval_grad (S := RS) xs s2 = RRet s2' tt /\
  se_eval_grad (S := RS) xs s3 = RRet s3' tt /\
  forall i, 0 <= i < Z.of_nat (List.length bs) -> exists v1 v2,
    se_get_grad s1' i = Ok v1 /\ se_get_grad s2' i = Ok v2 /\ se_get_grad s3' i = Ok (a * v1 + b * v2)%R.
Proof.
  destruct (gradient_ok (S := RS) bs 0%R one1 s1 c1 phis dphis xs Hp H1 C1 Hphi Hd Hx) as (t1 & E1 & _ & _ & G1).
  destruct (gradient_ok (S := RS) bs 0%R one2 s2 c2 phis dphis xs Hp H2 C2 Hphi Hd Hx) as (t2 & E2 & _ & _ & G2).
  destruct (gradient_ok (S := RS) bs 0%R one3 s3 _ phis dphis xs Hp H3 C3 Hphi Hd Hx) as (t3 & E3 & _ & _ & G3).
  exists t1, t2, t3. split; [exact E1|]. split; [exact E2|]. split; [exact E3|].
  intros i Hi. do 2 eexists. split; [apply G1; auto|]. split; [apply G2; auto|]. rewrite G3 by auto. now rewrite tensor_sum_linear.
Qed.

Lemma linear_hess : exists s1' s2' s3',
  se_eval_hess (S := RS) xs s1 = RRet s1' tt /\ se_eval_hess (S := RS) xs s2 = RRet s2' tt /\
  se_eval_hess (S := RS) xs s3 = RRet s3' tt /\
  forall i j, 0 <= i < Z.of_nat (List.length bs) -> 0 <= j < Z.of_nat (List.length bs) -> exists v1 v2,
    se_get_hess s1' i j = Ok v1 /\ se_get_hess s2' i j = Ok v2 /\ se_get_hess s3' i j = Ok (a * v1 + b * v2)%R.
Proof.
  destruct (hessian_ok (S := RS) bs 0%R one1 s1 c1 phis dphis ddphis xs Hp H1 C1 Hphi Hd Hdd Hx) as (t1 & E1 & _ & _ & G1 & _).
  destruct (hessian_ok (S := RS) bs 0%R one2 s2 c2 phis dphis ddphis xs Hp H2 C2 Hphi Hd Hdd Hx) as (t2 & E2 & _ & _ & G2 & _).
  destruct (hessian_ok (S := RS) bs 0%R one3 s3 _ phis dphis ddphis xs Hp H3 C3 Hphi Hd Hdd Hx) as (t3 & E3 & _ & _ & G3 & _).
  exists t1, t2, t3. split; [exact E1|]. split; [exact E2|]. split; [exact E3|].
  intros i j Hi Hj. do 2 eexists. split; [apply G1; auto|]. split; [apply G2; auto|]. rewrite G3 by auto. now rewrite tensor_sum_linear.
Qed.
End Linear.

(** A series just built, by a constructor or by set, vanishes with its derivatives. *)
Lemma fresh_vanishes : forall (bs : list (bset R R)) (s s0 : series RS) phis dphis ddphis xs,
  proper_basis (S := RS) bs -> se_zero s = 0%R -> se_set (S := RS) (map Some bs) s = RRet s0 tt ->
  implements (S := RS) KVal bs phis -> implements (S := RS) KGrad bs dphis -> implements (S := RS) KHess bs ddphis ->
  List.length xs = List.length bs ->
  (forall t, valid_index (sizes (S := RS) bs) t -> nd_at (se_coeff s0) t = Ok 0%R) /\
  (exists s', se_call (S := RS) xs s0 = RRet s' 0%R) /\
  (exists s', se_eval_grad (S := RS) xs s0 = RRet s' tt /\
     forall i, 0 <= i < Z.of_nat (List.length bs) -> se_get_grad s' i = Ok 0%R) /\
  (exists s', se_eval_hess (S := RS) xs s0 = RRet s' tt /\
     forall i j, 0 <= i < Z.of_nat (List.length bs) -> 0 <= j < Z.of_nat (List.length bs) -> se_get_hess s' i j = Ok 0%R).
Proof.
  intros bs s s0 phis dphis ddphis xs Hp Hz Hset Hphi Hd Hdd Hx.
  destruct (build_ok (S := RS) bs s Hp) as (s1 & E & Ho & Hc & _). pose proof (eq_trans (eq_sym Hset) E) as E'. injection E' as <-. clear E. rewrite Hz in Ho.
  change (coefficients (S := RS) s0 (sizes (S := RS) bs) (fun _ => 0%R)) in Hc.
  split; [exact Hc|]. split; [|split].
  - destruct (value_ok (S := RS) bs 0%R _ s0 _ phis xs Hp Ho Hc Hphi Hx) as (t & E & _). rewrite tensor_sum_zero in E. eauto.
  - destruct (gradient_ok (S := RS) bs 0%R _ s0 _ phis dphis xs Hp Ho Hc Hphi Hd Hx) as (t & E & _ & _ & G).
    exists t. split; [exact E|]. intros i Hi. rewrite G by auto. now rewrite tensor_sum_zero.
  - destruct (hessian_ok (S := RS) bs 0%R _ s0 _ phis dphis ddphis xs Hp Ho Hc Hphi Hd Hdd Hx) as (t & E & _ & _ & G & _).
    exists t. split; [exact E|]. intros i j Hi Hj. rewrite G by auto. now rewrite tensor_sum_zero.
Qed.
