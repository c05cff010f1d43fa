(** Concrete basis sets and series. *)
From Coq Require Import ZArith Reals.
From Coquelicot Require Import Coquelicot.
From Coq Require Import List Bool Lia ZifyBool Lra String QArith.
From Flocq Require Import Core.Raux.
From Verif Require Import Model.Outcome Model.Num Model.NumInst Model.PNDArray Model.BasisSet Model.Series Model.Iface Spec.Tensor
  Spec.NDHistory Spec.Basis Spec.Series Proofs.OutcomeP Proofs.PNDArrayP Proofs.BasisP Proofs.SeriesSumP Proofs.SeriesP
  Proofs.SeriesEvalP Proofs.SeriesOneP Proofs.SeriesRP Proofs.SeriesClientP.
Import ListNotations.
Local Open Scope Z_scope.

(** The monomials 1, x, x^2, ... over the reals. *)
Definition mono (k : Z) (x : R) : R := (x ^ Z.to_nat k)%R.
Definition dmono (k : Z) (x : R) : R := (INR (Z.to_nat k) * x ^ Nat.pred (Z.to_nat k))%R.
Definition ddmono (k : Z) (x : R) : R :=
  (INR (Z.to_nat k) * (INR (Nat.pred (Z.to_nat k)) * x ^ Nat.pred (Nat.pred (Z.to_nat k))))%R.

Lemma dpow : forall n u, is_derive (fun x : R => (x ^ n)%R) u (INR n * u ^ Nat.pred n)%R.
Proof. intros n u. auto_derive; [exact I|ring]. Qed.

Lemma mono_derivative : forall k u, is_derive (mono k) u (dmono k u).
Proof. intros k u. apply dpow. Qed.
Lemma dmono_derivative : forall k u, is_derive (dmono k) u (ddmono k u).
Proof.
  intros k u. unfold dmono, ddmono.
  apply (is_derive_scal (fun x : R => (x ^ Nat.pred (Z.to_nat k))%R) u (INR (Z.to_nat k))). apply dpow.
Qed.

Definition mono_set (n : nat) : bset R R :=
  mkBset "Monomial" (Some 30) (fun k x => Ok (mono k x)) (fun k x => Ok (dmono k x)) (fun k x => Ok (ddmono k x))
    (repeat 0%R n) (repeat 0%R n) (repeat 0%R n).

Lemma mono_make : forall n, (n <= 30)%nat ->
  bs_make 0%R "Monomial" (Some 30) (fun k x => Ok (mono k x)) (fun k x => Ok (dmono k x)) (fun k x => Ok (ddmono k x)) (Z.of_nat n)
  = Ok (mono_set n).
Proof.
  intros n Hn. unfold bs_make, bs_resize, mbind, mget. cbn [bs_limit].
  replace (30 <? Z.of_nat n) with false by lia. replace (size_too_big <=? Z.of_nat n) with false by (unfold size_too_big; lia).
  unfold mput, bs_store, vresize, mono_set. cbn [bs_name bs_limit bs_fun bs_dfun bs_ddfun bs_val bs_gval bs_hval].
  rewrite Nat2Z.id, firstn_nil. simpl. rewrite Nat.sub_0_r. reflexivity.
Qed.

Definition ex_bs : list (bset R R) := [mono_set 3; mono_set 2].
Definition ex_phis : list (Z -> R -> R) := [mono; mono].
Definition ex_dphis : list (Z -> R -> R) := [dmono; dmono].
Definition ex_ddphis : list (Z -> R -> R) := [ddmono; ddmono].

Lemma mono_reachable : forall n, (n <= 30)%nat -> reachable_bset 0%R (mono_set n).
Proof.
  intros n Hn. do 3 eexists. eapply BMake; [intros; reflexivity| |apply mono_make; auto]. lia.
Qed.

Lemma ex_proper : proper_basis (S := RS) ex_bs.
Proof.
  split.
  - repeat constructor; apply mono_reachable; lia.
  - split.
    + apply proper_usable. change (proper_shape [3; 2]). split; [discriminate|]. split; [repeat (apply Forall_cons; [reflexivity|]); apply Forall_nil|].
      discriminate.
    + change (Forall (fun n => n <= int_max) [3; 2]). repeat (apply Forall_cons; [discriminate|]). apply Forall_nil.
Qed.

Lemma ex_implements : implements (S := RS) KVal ex_bs ex_phis /\ implements (S := RS) KGrad ex_bs ex_dphis /\
  implements (S := RS) KHess ex_bs ex_ddphis.
Proof. repeat split; repeat constructor. Qed.

Lemma ex_derivatives : derivatives ex_phis ex_dphis /\ derivatives ex_dphis ex_ddphis.
Proof.
  split; (apply Forall2_cons; [|apply Forall2_cons; [|apply Forall2_nil]]); intros k u;
    first [apply mono_derivative|apply dmono_derivative].
Qed.

(** The series 2 x y: every coefficient 0 except that of (1, 1). *)
Definition ex_c (t : list Z) : R := if list_eq_dec Z.eq_dec t [1; 1] then 2%R else 0%R.
Definition ex_fresh : series RS :=
  mkSeries (S := RS) (mkNd [3; 2] [2; 1] (repeat 0%R 6) 2 6) 1%R 0%R (map Some ex_bs) (Some 0%R) [0%R; 0%R] [[0%R; 0%R]; [0%R; 0%R]].
Definition ex_s : series RS :=
  mkSeries (S := RS) (mkNd [3; 2] [2; 1] [0%R; 0%R; 0%R; 2%R; 0%R; 0%R] 2 6) 1%R 0%R (map Some ex_bs) (Some 0%R) [0%R; 0%R]
    [[0%R; 0%R]; [0%R; 0%R]].

Lemma ex_fresh_set : se_set (S := RS) (map Some ex_bs) (se_new0 (S := RS) 0%R 1%R) = RRet ex_fresh tt.
Proof. reflexivity. Qed.

Lemma ex_put : srun (S := RS) (SPutCoeff (S := RS) [1; 1] 2%R) ex_fresh = RRet ex_s tt.
Proof. reflexivity. Qed.

Lemma ex_over : series_over (S := RS) ex_bs 0%R 1%R ex_s.
Proof.
  eapply SRet; [|exact ex_put]. eapply SBuilt; [| |exact ex_fresh_set]; reflexivity.
Qed.

Lemma valid_32 : forall t, valid_index [3; 2] t -> In t [[0;0]; [0;1]; [1;0]; [1;1]; [2;0]; [2;1]].
Proof.
  intros t H. inversion H as [|? i ? ? Hi H1]; subst. inversion H1 as [|? j ? ? Hj H2]; subst. inversion H2; subst.
  assert (Hi' : i = 0 \/ i = 1 \/ i = 2) by lia. assert (Hj' : j = 0 \/ j = 1) by lia.
  destruct Hi' as [-> | [-> | ->]], Hj' as [-> | ->]; simpl; auto 10.
Qed.

Lemma ex_coefficients : coefficients (S := RS) ex_s (sizes (S := RS) ex_bs) ex_c.
Proof.
  intros t Ht. change (sizes (S := RS) ex_bs) with [3; 2] in Ht. apply valid_32 in Ht. unfold ex_c. simpl in Ht.
  repeat (destruct Ht as [<-|Ht]; [reflexivity|]). contradiction.
Qed.

Lemma ex_sum : forall f g : Z -> R, tensor_sum RS [3; 2] ex_c [f; g] 0%R = (2 * (f 1%Z * g 1%Z))%R.
Proof.
  intros f g. rewrite tensor_sum_R. unfold ex_c. simpl. unfold product. simpl. ring.
Qed.

Lemma ex_fun : forall x y, series_fun [3; 2] ex_c ex_phis [x; y] = (2 * (x * y))%R.
Proof.
  intros x y. rewrite <- series_fun_sum. unfold ex_phis, at_point. simpl combine. simpl map.
  etransitivity; [apply ex_sum|]. unfold mono. simpl. ring.
Qed.

(** ** Stored values *)
Lemma ex_no_values : cached (S := RS) ex_s [3; 2] KVal [fun _ => 0%R; fun _ => 0%R].
Proof.
  split; [reflexivity|]. intros j n f t Hn Hf Ht. destruct j as [|[|j]]; simpl in Hn, Hf.
  - injection Hn as <-. injection Hf as <-. assert (Hc : t = 0 \/ t = 1 \/ t = 2) by lia. destruct Hc as [-> | [-> | ->]]; reflexivity.
  - injection Hn as <-. injection Hf as <-. assert (Hc : t = 0 \/ t = 1) by lia. destruct Hc as [-> | ->]; reflexivity.
  - destruct j; discriminate.
Qed.

Lemma ex_trunc : forall n, 0 <= n < 2 ^ 31 -> trunc_to_int ROps (IZR n) = Ok n.
Proof.
  intros n Hn. unfold trunc_to_int. cbn [nltb nofZ nopp nfloor ROps].
  rewrite Rlt_bool_false by (apply IZR_le; lia). rewrite Zfloor_IZR.
  replace (in_int n) with true by (unfold in_int, INT_MIN, INT_MAX; lia). reflexivity.
Qed.

(** At (0, 1) the coordinate 1 is a term number of the second set; at (0, 5) the coordinate 5 is not. *)
Lemma ex_readable : readable (S := RS) ex_bs (fun k => k =? 0) [0%R; 1%R].
Proof.
  intros j b x Hb Hx Hs. destruct j as [|[|j]]; simpl in *; try discriminate; [|destruct j; discriminate].
  injection Hb as <-. injection Hx as <-. exists 1. split; [apply (ex_trunc 1); lia|]. unfold bs_size. simpl. lia.
Qed.

Lemma ex_unreadable : ~ readable (S := RS) ex_bs (fun k => k =? 0) [0%R; 5%R].
Proof.
  intros H. destruct (H 1%nat (mono_set 2) 5%R eq_refl eq_refl eq_refl) as (k & Hk & Hr).
  change (trunc_to_int ROps 5%R = Ok k) in Hk. rewrite (ex_trunc 5) in Hk by lia. injection Hk as <-.
  unfold bs_size in Hr. simpl in Hr. lia.
Qed.

Lemma partial_unique : forall f i x v w, partial f i x v -> partial f i x w -> v = w.
Proof.
  intros f i x v w (u & Hu & Hd) (u' & Hu' & Hd'). rewrite Hu in Hu'. injection Hu' as <-.
  rewrite <- (is_derive_unique _ _ _ Hd). exact (is_derive_unique _ _ _ Hd').
Qed.

(** The same call on two series with the same coefficients: right after evaluating at the point, and right after construction. *)
Lemma stale_refuted : exists (bs : list (bset R R)) phis dphis (s s' : series RS) c xs t t' g g',
  proper_basis (S := RS) bs /\ implements (S := RS) KVal bs phis /\ implements (S := RS) KGrad bs dphis /\ derivatives phis dphis /\
  series_over (S := RS) bs 0%R 1%R s /\ series_over (S := RS) bs 0%R 1%R s' /\
  coefficients (S := RS) s (sizes (S := RS) bs) c /\ coefficients (S := RS) s' (sizes (S := RS) bs) c /\
  se_call_grad (S := RS) xs 0 s = RRet t g /\ se_call_grad (S := RS) xs 0 s' = RRet t' g' /\
  partial (series_fun (sizes (S := RS) bs) c phis) 0 xs g /\ ~ partial (series_fun (sizes (S := RS) bs) c phis) 0 xs g'.
Proof.
  destruct ex_implements as (Hp & Hd & _). destruct ex_derivatives as (Hder & _).
  destruct (call_ok (S := RS) ex_bs 0%R 1%R (proj2 ex_proper) ex_s ex_c ex_phis [0%R; 1%R]
              (over_inv _ _ _ _ ex_proper ex_over) ex_coefficients Hp eq_refl) as (s1 & E1 & _ & _ & Hc1 & Hv1 & _).
  assert (Ho1 : series_over (S := RS) ex_bs 0%R 1%R s1).
  { apply SRet with (s := ex_s) (c := SCall (S := RS) [0%R; 1%R]); [exact ex_over|]. simpl. unfold mbind. rewrite E1. reflexivity. }
  assert (Hco1 : coefficients (S := RS) s1 (sizes (S := RS) ex_bs) ex_c).
  { intros u Hu. rewrite Hc1. apply ex_coefficients. exact Hu. }
  destruct (real_single_grad ex_bs 1%R s1 ex_c ex_proper Ho1 Hco1 ex_phis ex_dphis [0%R; 1%R] 0 Hp Hd Hder eq_refl
              ltac:(simpl; lia) Hv1 ex_readable) as (t & g & Eg & Hg).
  destruct (single_grad_ok (S := RS) ex_bs 0%R 1%R ex_s ex_c _ ex_dphis [0%R; 1%R] 0 ex_proper ex_over ex_coefficients ex_no_values
              Hd eq_refl ltac:(simpl; lia) ex_readable) as (t' & Eg').
  exists ex_bs, ex_phis, ex_dphis, s1, ex_s, ex_c, [0%R; 1%R]. do 4 eexists.
  split; [exact ex_proper|]. split; [exact Hp|]. split; [exact Hd|]. split; [exact Hder|]. split; [exact Ho1|]. split; [exact ex_over|].
  split; [exact Hco1|]. split; [exact ex_coefficients|]. split; [exact Eg|]. split; [exact Eg'|]. split; [exact Hg|].
  intros Hbad.
  assert (H0 : partial (series_fun (sizes (S := RS) ex_bs) ex_c ex_phis) 0 [0%R; 1%R] 2%R).
  { exists 0%R. split; [reflexivity|]. apply is_derive_ext with (f := fun u : R => (2 * (u * 1))%R).
    - intros u. symmetry. apply ex_fun.
    - auto_derive; [exact I|ring]. }
  pose proof (partial_unique _ _ _ _ _ Hbad H0) as Heq.
  assert (Hz : tensor_sum RS [3; 2] ex_c (by1 [fun _ => 0%R; fun _ => 0%R] (at_point ex_dphis [0%R; 1%R]) 0) 0%R = 0%R).
  { unfold by1, swap, ex_dphis, at_point. simpl combine. simpl map. cbn [nth_error Z.to_nat lset].
    etransitivity; [apply ex_sum|]. cbv beta. match goal with |- ?a = ?b => change (@eq R a b) end. apply Rmult_eq_0_compat_l. apply Rmult_0_r. }
  assert (H20 : 0%R = 2%R) by exact (eq_trans (eq_sym Hz) Heq). lra.
Qed.

(** Evaluating at the point first does not help when the other coordinate is no term number. *)
Lemma read_refuted : exists (bs : list (bset R R)) phis dphis (s s' : series RS) xs v r,
  proper_basis (S := RS) bs /\ implements (S := RS) KVal bs phis /\ implements (S := RS) KGrad bs dphis /\ derivatives phis dphis /\
  series_over (S := RS) bs 0%R 1%R s /\ List.length xs = List.length bs /\
  se_call (S := RS) xs s = RRet s' v /\ se_call_grad (S := RS) xs 0 s' = RUB r.
Proof.
  destruct ex_implements as (Hp & Hd & Hdd). destruct ex_derivatives as (Hder & _).
  destruct (value_ok (S := RS) ex_bs 0%R 1%R ex_s ex_c ex_phis [0%R; 5%R] ex_proper ex_over ex_coefficients Hp eq_refl) as (s1 & E1 & _).
  assert (Ho1 : series_over (S := RS) ex_bs 0%R 1%R s1).
  { apply SRet with (s := ex_s) (c := SCall (S := RS) [0%R; 5%R]); [exact ex_over|]. simpl. unfold mbind. rewrite E1. reflexivity. }
  destruct (proj1 (single_bad (S := RS) ex_bs 0%R 1%R s1 ex_dphis ex_ddphis [0%R; 5%R] (num_conversion ROps) ex_proper Ho1 Hd Hdd eq_refl)
              0 ex_unreadable) as (r & Er).
  exists ex_bs, ex_phis, ex_dphis, ex_s, s1, [0%R; 5%R]. do 2 eexists.
  split; [exact ex_proper|]. split; [exact Hp|]. split; [exact Hd|]. split; [exact Hder|]. split; [exact ex_over|].
  split; [reflexivity|]. split; [exact E1|exact Er].
Qed.

(** Through the interface the gradient is computed but cannot be fetched. *)
Lemma ex_iface : exists s' g, pf_eval_grad (PSeriesFunction_class RS) [2%R; 5%R] ex_s = RRet s' tt /\
  se_get_grad (S := RS) s' 0 = Ok g /\ pf_get_grad (PSeriesFunction_class RS) 0 s' = RThrow s' RuntimeError.
Proof.
  destruct ex_implements as (Hp & Hd & _).
  destruct (gradient_ok (S := RS) ex_bs 0%R 1%R ex_s ex_c ex_phis ex_dphis [2%R; 5%R] ex_proper ex_over ex_coefficients Hp Hd eq_refl)
    as (s' & E & _ & _ & Hg).
  exists s'. eexists. split; [|split].
  - exact (eq_trans (proj1 (proj2 (proj2 (iface_value (S := RS) [2%R; 5%R] ex_s)))) E).
  - apply Hg. split; [discriminate|reflexivity].
  - apply (iface_derivatives (S := RS) s').
Qed.

(** ** Executable examples in exact rational arithmetic *)
Fixpoint qpow (x : Q) (n : nat) : Q := match n with 0%nat => 1%Q | Datatypes.S n => Qred (x * qpow x n) end.
Definition qset (n : Z) : outcome (bset Q Q) :=
  bs_make 0%Q "Monomial" (Some 30) (fun k x => Ok (qpow x (Z.to_nat k)))
    (fun k x => Ok (Qred (inject_Z k * qpow x (Nat.pred (Z.to_nat k)))))
    (fun k x => Ok (Qred (inject_Z k * inject_Z (k - 1) * qpow x (Nat.pred (Nat.pred (Z.to_nat k)))))) n.
Definition QS : SerOps := num_series QOps.

(** 2 x y + 3 x^2 on sizes (3, 2), evaluated at (2, 5); the gradient and mixed derivative there. *)
Definition q_run : outcome (Q * Q * Q * Q) :=
  let* b1 := qset 3 in
  let* b2 := qset 2 in
  let* s := se_new (S := QS) 0%Q 1%Q [Some b1; Some b2] in
  match ((on_coeff (S := QS) (lift_set (fun c => nd_put c [1; 1] 2%Q)) ;;; on_coeff (S := QS) (lift_set (fun c => nd_put c [2; 0] 3%Q)) ;;;
          do* v := se_call (S := QS) [2%Q; 5%Q] in
          se_eval_grad (S := QS) [2%Q; 5%Q] ;;;
          se_eval_hess (S := QS) [2%Q; 5%Q] ;;;
          do* s := mget in
          do* g0 := mlift (se_get_grad (S := QS) s 0) in
          do* g1 := mlift (se_get_grad (S := QS) s 1) in
          do* h := mlift (se_get_hess (S := QS) s 0 0) in
          mret (v, g0, g1, h)) : M (series QS) _) s with
  | RRet _ a => Ok a
  | _ => Exit
  end.
Lemma q_run_value : q_run = Ok (32, 22, 4, 6)%Q.
Proof. vm_compute. reflexivity. Qed.

(** A history on one basis set: evaluate term 2 at 3, all terms at 2, term 1 at 7; shrink to two terms and grow back to three. *)
Definition q_hist : outcome (list Q) :=
  let* b := qset 3 in
  match ((bs_call 2 3%Q ;;; bs_eval 2%Q ;;; bs_call 1 7%Q ;;; bs_resize 0%Q 2 ;;; bs_resize 0%Q 3) : M (bset Q Q) unit) b with
  | RRet b' _ => let* v0 := bs_get b' 0 in let* v1 := bs_get b' 1 in let* v2 := bs_get b' 2 in Ok [v0; v1; v2]
  | _ => Exit
  end.
Lemma q_hist_value : q_hist = Ok [1; 7; 0]%Q.
Proof. vm_compute. reflexivity. Qed.

(** After evaluating at (2, 1) the values are stored. *)
Lemma ex_evaluated : exists s1, se_call (S := RS) [2%R; 1%R] ex_s = RRet s1 4%R /\ series_over (S := RS) ex_bs 0%R 1%R s1 /\
  coefficients (S := RS) s1 (sizes (S := RS) ex_bs) ex_c /\ cached (S := RS) s1 (sizes (S := RS) ex_bs) KVal (at_point ex_phis [2%R; 1%R]) /\
  readable (S := RS) ex_bs (fun k => k =? 0) [2%R; 1%R].
Proof.
  destruct ex_implements as (Hp & _).
  destruct (call_ok (S := RS) ex_bs 0%R 1%R (proj2 ex_proper) ex_s ex_c ex_phis [2%R; 1%R]
              (over_inv _ _ _ _ ex_proper ex_over) ex_coefficients Hp eq_refl) as (s1 & E1 & _ & _ & Hc1 & Hv1 & _).
  exists s1. split.
  { rewrite E1. f_equal. rewrite series_fun_sum. etransitivity; [apply (ex_fun 2 1)|]. match goal with |- ?a = ?b => change (@eq R a b) end. ring. }
  split. { apply SRet with (s := ex_s) (c := SCall (S := RS) [2%R; 1%R]); [exact ex_over|]. simpl. unfold mbind. rewrite E1. reflexivity. }
  split. { intros u Hu. rewrite Hc1. apply ex_coefficients. exact Hu. }
  split; [exact Hv1|].
  intros j b x Hb Hx Hs. destruct j as [|[|j]]; simpl in *; try discriminate; [|destruct j; discriminate].
  injection Hb as <-. injection Hx as <-. exists 1. split; [apply (ex_trunc 1); lia|]. unfold bs_size. simpl. lia.
Qed.
