(** Series: the single derivative calls. *)
From Coq Require Import ZArith List Bool Lia ZifyBool.
From Verif Require Import Model.Outcome Model.Num Model.PNDArray Model.PSimple Model.BasisSet Model.Series Spec.Tensor Spec.NDHistory
  Spec.Basis Spec.Series Proofs.OutcomeP Proofs.PNDArrayP Proofs.FuncObjP Proofs.BasisP Proofs.SeriesSumP Proofs.SeriesP
  Proofs.SeriesEvalP.
Import ListNotations.
Local Open Scope Z_scope.

Section One.
Context {S : SerOps}.
Local Notation X := (sx S).
Local Notation A := (sa S).
Implicit Types (s : series S).
Context (bs : list (bset X A)) (zero one : A).
Local Notation dims := (sizes bs).

Lemma cached_exists : forall s k, fit_sizes dims -> inv bs zero one s -> exists fs, cached s dims k fs.
Proof.
  intros s k Hfit Hi.
  set (tab := fun p : option (bset X A) => fun t : Z =>
    match p with Some b => match nth_error (cache b k) (Z.to_nat t) with Some a => a | None => sdflt S end | None => sdflt S end).
  exists (map tab (se_basis s)).
  pose proof (Forall2_len _ _ _ _ _ (inv_basis _ _ _ _ Hi)) as Hl. split.
  - unfold sizes. now rewrite !map_length.
  - intros j n f t Hd Hf Ht. unfold sizes in Hd.
    destruct (nth_error bs j) as [b|] eqn:Eb.
    + rewrite (map_nth_error bs_size _ _ Eb) in Hd. injection Hd as <-.
      destruct (entry_at _ _ _ _ _ _ Hi Eb) as (b' & Hv & (_ & Hlen)).
      pose proof (sizes_bound bs j b Hfit Eb) as Hm. unfold int_max in Hm.
      rewrite (stored_entry _ _ _ _ _ Hv) by lia. rewrite vget_nat in Hv.
      destruct (nth_error (se_basis s) j) as [p|] eqn:Ep; [|discriminate]. injection Hv as ->.
      rewrite (map_nth_error tab _ _ Ep) in Hf. injection Hf as <-. unfold tab.
      apply vget_some. split; [lia|].
      destruct (nth_error (cache b' k) (Z.to_nat t)) eqn:E; auto. apply nth_error_None in E. rewrite Hlen in E. lia.
    + apply nth_error_None in Eb. assert (j < List.length (map bs_size bs))%nat by (apply nth_error_Some; congruence).
      rewrite map_length in *. lia.
Qed.

Local Notation readable := (readable bs).

Lemma getter_ok : forall s xs j b x k, fit_sizes dims -> inv bs zero one s -> nth_error bs j = Some b -> nth_error xs j = Some x ->
  sint S x = Ok k -> 0 <= k < bs_size b -> getter_call xs (Z.of_nat j) s = RRet s tt.
Proof.
  intros s xs j b x k Hfit Hi Hb Hx Hk Hr. unfold getter_call, mbind, mget, mlift, mret.
  rewrite vget_nat, Hx, Hk. destruct (entry_at _ _ _ _ _ _ Hi Hb) as (b' & Hv & (_ & Hlen)).
  pose proof (sizes_bound bs j b Hfit Hb) as Hm. unfold int_max in Hm.
  pose proof (stored_entry s KVal _ k _ Hv ltac:(lia)) as Hst. unfold stored_basis, se_get_basis in Hst. rewrite Hst.
  destruct (proj2 (vget_ok_iff _ (cache b' KVal) k)) as (a & ->); [rewrite Hlen; lia|]. reflexivity.
Qed.

Lemma getter_bad : forall s xs j b x, fit_sizes dims -> int_conversion S -> inv bs zero one s -> nth_error bs j = Some b ->
  nth_error xs j = Some x -> ~ (exists k, sint S x = Ok k /\ 0 <= k < bs_size b) ->
  exists r, getter_call xs (Z.of_nat j) s = RUB r.
Proof.
  intros s xs j b x Hfit Hconv Hi Hb Hx Hno. unfold getter_call, mbind, mget, mlift, mret.
  rewrite vget_nat, Hx. specialize (Hconv x). destruct (sint S x) as [k| | |r|] eqn:Ek; try contradiction; [|eauto].
  destruct (entry_at _ _ _ _ _ _ Hi Hb) as (b' & Hv & (_ & Hlen)).
  pose proof (sizes_bound bs j b Hfit Hb) as Hm. unfold int_max in Hm. pose proof (size_nonneg b) as Hnn.
  unfold basis_get. rewrite Hv. simpl. unfold bs_get, int_to_size. change (bs_val b') with (cache b' KVal).
  assert (Hk : ~ 0 <= k < bs_size b) by (intros Hk; apply Hno; eauto). unfold fits_int in Hconv.
  rewrite vget_out; [eauto|]. rewrite Hlen. destruct (Z_lt_dec k 0) as [Hn|Hn].
  - replace (k mod 2 ^ 64) with (k + 2 ^ 64); [lia|]. apply Zmod_unique with (-1); lia.
  - rewrite Z.mod_small by lia. lia.
Qed.

Section Known.
Hypothesis Hfit : fit_sizes dims.

(** The loop of grad(var, di) and hess(var, di, dj): fresh derivatives of kind [k] for the selected variables. *)
Definition mixed_body (sel : Z -> bool) (k : kind) (xs : list X) (i : Z) : M (series S) unit :=
  if sel i
  then do* x := mlift (vget xs i) in on_basis i (pb_eval_k k x) ;;; mret tt
  else getter_call xs i.

Lemma mixed_step : forall sel k phis xs, implements k bs phis -> List.length xs = List.length bs -> readable sel xs ->
  forall s j b g, inv bs zero one s -> nth_error bs j = Some b -> nth_error (at_point phis xs) j = Some g ->
     exists s', mixed_body sel k xs (Z.of_nat j) s = RRet s' tt /\ inv bs zero one s' /\ frame s s' /\
       (sel (Z.of_nat j) = true -> forall t, 0 <= t < bs_size b -> stored_basis s' k (Z.of_nat j) t = Ok (g t)) /\
       others k (fun j' => (j' =? Z.of_nat j) && sel j') s s'.
Proof.
  intros sel k phis xs Himp Hxs Hread s j b g Hi Hb Hg.
  pose proof (Forall2_len _ _ _ _ _ Himp) as Hlp.
  assert (Hjb : (j < List.length bs)%nat) by (apply nth_error_Some; congruence).
  destruct (nth_error xs j) as [x|] eqn:Ex; [|apply nth_error_None in Ex; lia].
  destruct (nth_error phis j) as [phi|] eqn:Ep; [|apply nth_error_None in Ep; lia].
  rewrite (at_point_nth _ _ _ _ _ Ep Ex) in Hg. injection Hg as <-.
  unfold mixed_body. destruct (sel (Z.of_nat j)) eqn:Es.
  - destruct (eval_step bs zero one s k xs j b x (fun t => phi t x) Hi Hb) as (s1 & E1 & Hi1 & Hf1 & Hn1 & Ho1); auto.
    + eapply sizes_bound; eauto.
    + intros t Ht. exact (Forall2_nth_error _ _ _ _ _ _ _ _ Himp Hb Ep t x Ht).
    + exists s1. split; [exact E1|]. split; [auto|]. split; [auto|]. split; [auto|].
      intros k' j' t Hc. apply Ho1. destruct Hc as [Hc|Hc]; auto. right.
      destruct (Z.eq_dec j' (Z.of_nat j)) as [->|Hne]; [rewrite Es in Hc; lia|lia].
  - destruct (Hread j b x Hb Ex Es) as (k0 & Hk0 & Hr).
    exists s. split; [eapply getter_ok; eauto|]. split; [auto|]. split; [apply frame_refl|]. split; [congruence|].
    intros k' j' t _. reflexivity.
Qed.

Lemma mixed_loop : forall sel k phis xs s, implements k bs phis -> List.length xs = List.length bs -> readable sel xs -> inv bs zero one s ->
  exists s', mfor (zseq (nd_order (se_coeff s))) (mixed_body sel k xs) s = RRet s' tt /\ inv bs zero one s' /\ frame s s' /\
    (forall old, cached s dims k old -> forall new, List.length new = List.length dims ->
       (forall j, (j < List.length bs)%nat -> nth_error new j =
          if sel (Z.of_nat j) then nth_error (at_point phis xs) j else nth_error old j) -> cached s' dims k new) /\
    (forall k' fs, k' <> k -> cached s dims k' fs -> cached s' dims k' fs).
Proof.
  intros sel k phis xs s Himp Hxs Hread Hi. rewrite (zseq_order _ _ _ _ Hi).
  pose proof (Forall2_len _ _ _ _ _ Himp) as Hlp.
  destruct (eval_loop bs zero one k sel (at_point phis xs) (mixed_body sel k xs)) with (m := List.length bs) (i := 0%nat) (s := s)
    as (s' & E & Hi' & Hf & Hn & Ho); auto.
  - rewrite length_at_point; lia.
  - intros. eapply mixed_step; eauto.
  - exists s'. split; [exact E|]. split; [auto|]. split; [auto|]. split.
    + intros old (Hlo & Hold) new Hln Hnew. split; auto. intros j n f t Hd Hf' Ht.
      assert (Hjb : (j < List.length bs)%nat).
      { assert (j < List.length dims)%nat by (apply nth_error_Some; congruence). unfold sizes in *. rewrite map_length in *. auto. }
      rewrite Hnew in Hf' by auto.
      destruct (nth_error bs j) as [b|] eqn:Eb; [|apply nth_error_None in Eb; lia].
      destruct (sel (Z.of_nat j)) eqn:Es.
      * unfold sizes in Hd. rewrite (map_nth_error bs_size _ _ Eb) in Hd. injection Hd as <-. eapply Hn; eauto. lia.
      * rewrite Ho by (right; rewrite Es; apply andb_false_r). eapply Hold; eauto.
    + intros k' fs Hk (Hl & Hc). split; auto. intros j n f t Hd Hf' Ht. rewrite Ho by auto. eapply Hc; eauto.
Qed.

Lemma mixed_loop_bad : forall sel k phis xs s, int_conversion S -> implements k bs phis -> List.length xs = List.length bs ->
  ~ readable sel xs -> inv bs zero one s ->
  exists r, mfor (zseq (nd_order (se_coeff s))) (mixed_body sel k xs) s = RUB r.
Proof.
  intros sel k phis xs s Hconv Himp Hxs Hread Hi. rewrite (zseq_order _ _ _ _ Hi).
  pose proof (Forall2_len _ _ _ _ _ Himp) as Hlp.
  (* a decidable search for the first coordinate that cannot be read *)
  set (good := fun j => match nth_error bs j, nth_error xs j with
                        | Some b, Some x => sel (Z.of_nat j) || match sint S x with Ok k => (0 <=? k) && (k <? bs_size b) | _ => false end
                        | _, _ => true
                        end).
  assert (Hgood : forall j b x, nth_error bs j = Some b -> nth_error xs j = Some x ->
     (good j = true <-> sel (Z.of_nat j) = true \/ exists k, sint S x = Ok k /\ 0 <= k < bs_size b)).
  { intros j b x Hb Hx. unfold good. rewrite Hb, Hx. split.
    - intros H. apply orb_true_iff in H as [H|H]; auto. right. destruct (sint S x) as [k0| | | |]; try discriminate.
      exists k0. split; auto. lia.
    - intros [H|(k0 & -> & H)]; [now rewrite H|]. apply orb_true_iff. right. lia. }
  assert (Hbad : exists j, (j < List.length bs)%nat /\ good j = false).
  { destruct (forallb good (seq 0 (List.length bs))) eqn:Ef.
    - exfalso. apply Hread. intros j b x Hb Hx Hs. rewrite forallb_forall in Ef.
      assert (Hj : good j = true). { apply Ef. apply in_seq. assert (j < List.length bs)%nat by (apply nth_error_Some; congruence). lia. }
      apply (Hgood j b x Hb Hx) in Hj as [Hj|Hj]; [congruence|auto].
    - assert (Hex : existsb (fun j => negb (good j)) (seq 0 (List.length bs)) = true).
      { revert Ef. induction (seq 0 (List.length bs)) as [|a l IH]; simpl; intros H; [discriminate|].
        apply andb_false_iff in H as [H|H]; [rewrite H; reflexivity|]. rewrite IH by auto. apply orb_true_r. }
      apply existsb_exists in Hex as (j & Hin & Hj). apply in_seq in Hin. exists j. split; [lia|].
      destruct (good j); auto; discriminate. }
  destruct Hbad as (j0 & Hj0 & Hg0).
  assert (Hloop : forall m i s, (i <= j0 < i + m)%nat -> (i + m <= List.length bs)%nat -> inv bs zero one s ->
     exists r, mfor (map Z.of_nat (seq i m)) (mixed_body sel k xs) s = RUB r).
  { induction m as [|m IH]; intros i s0 Hij Him Hi0; [lia|].
    destruct (nth_error bs i) as [b|] eqn:Eb; [|apply nth_error_None in Eb; lia].
    destruct (nth_error xs i) as [x|] eqn:Ex; [|apply nth_error_None in Ex; lia].
    destruct (nth_error phis i) as [phi|] eqn:Ep; [|apply nth_error_None in Ep; lia].
    simpl. unfold mbind at 1. destruct (good i) eqn:Eg.
    - assert (Hne : i <> j0) by congruence. unfold mixed_body at 1.
      destruct (sel (Z.of_nat i)) eqn:Es.
      + destruct (eval_step bs zero one s0 k xs i b x (fun t => phi t x) Hi0 Eb) as (s1 & E1 & Hi1 & _); auto.
        * eapply sizes_bound; eauto.
        * intros t Ht. exact (Forall2_nth_error _ _ _ _ _ _ _ _ Himp Eb Ep t x Ht).
        * rewrite E1. apply IH; auto; lia.
      + apply (Hgood i b x Eb Ex) in Eg as [Eg|(k0 & Hk0 & Hr)]; [congruence|].
        rewrite (getter_ok s0 xs i b x k0); auto. apply IH; auto; lia.
    - unfold mixed_body at 1. assert (Es : sel (Z.of_nat i) = false).
      { unfold good in Eg. rewrite Eb, Ex in Eg. apply orb_false_iff in Eg. tauto. }
      rewrite Es. destruct (getter_bad s0 xs i b x Hfit Hconv Hi0 Eb Ex) as (r & ->); [|eauto].
      intros Hex. apply (or_intror (A := sel (Z.of_nat i) = true)) in Hex. apply (Hgood i b x Eb Ex) in Hex. congruence. }
  apply Hloop; auto; lia.
Qed.

Lemma call_grad_eq : forall xs di s, se_call_grad xs di s =
  (mfor (zseq (nd_order (se_coeff s))) (mixed_body (fun i => i =? di) KGrad xs) ;;; calc_grad_val di) s.
Proof. reflexivity. Qed.

Lemma call_hess_eq : forall xs di dj s, se_call_hess xs di dj s =
  (mfor (zseq (nd_order (se_coeff s)))
     (mixed_body (fun i => (i =? di) || (i =? dj)) (if di =? dj then KHess else KGrad) xs) ;;; calc_hess_val di dj) s.
Proof.
  intros xs di dj s. unfold se_call_hess, mixed_body, mbind, mget. destruct (di =? dj); reflexivity.
Qed.

Lemma swap_nth_eq : forall (B : Type) (l l' : list B), (forall j, nth_error l j = nth_error l' j) -> l = l'.
Proof. exact nth_error_inj. Qed.

Lemma call_grad_ok : forall s c V dphis xs di, inv bs zero one s -> coefficients s dims c -> cached s dims KVal V ->
  implements KGrad bs dphis -> List.length xs = List.length bs -> 0 <= di < Z.of_nat (List.length bs) ->
  readable (fun j => j =? di) xs ->
  exists s', se_call_grad xs di s = RRet s' (tensor_sum S dims c (by1 V (at_point dphis xs) di) zero) /\ inv bs zero one s' /\
    se_coeff s' = se_coeff s /\ se_get_grad s' di = Ok (tensor_sum S dims c (by1 V (at_point dphis xs) di) zero).
Proof.
  intros s c V dphis xs di Hi Hc HV Himp Hxs Hdi Hread. rewrite call_grad_eq.
  destruct (mixed_loop (fun i => i =? di) KGrad dphis xs s Himp Hxs Hread Hi) as (s1 & E1 & Hi1 & (F1 & F2 & F3 & F4) & Hnew & Hother).
  destruct (cached_exists s KGrad Hfit Hi) as (old & Hold).
  pose proof (Forall2_len _ _ _ _ _ Himp) as Hlp.
  assert (Hla : List.length (at_point dphis xs) = List.length bs) by (rewrite length_at_point; lia).
  assert (Hls : List.length dims = List.length bs) by (unfold sizes; apply map_length).
  assert (HG1 : cached s1 dims KGrad (swap old di (at_point dphis xs))).
  { apply (Hnew old Hold).
    - rewrite length_swap. apply Hold.
    - intros j Hj. rewrite nth_error_swap; [reflexivity|lia|]. rewrite (proj1 Hold). lia. }
  assert (HV1 : cached s1 dims KVal V) by (apply Hother; auto; discriminate).
  destruct (calc_grad_ok bs zero one Hfit s1 c V (swap old di (at_point dphis xs)) di Hi1 (coefficients_same bs _ _ _ F1 Hc) HV1 HG1 Hdi)
    as (s2 & E2 & Hi2 & V2 & C2 & B2 & G2 & H2).
  assert (Hby : by1 V (swap old di (at_point dphis xs)) di = by1 V (at_point dphis xs) di).
  { apply swap_nth_eq. intros j. pose proof (proj1 HV). pose proof (proj1 Hold). unfold by1.
    rewrite !nth_error_swap by (rewrite ?length_swap; lia). destruct (Z.of_nat j =? di); auto. }
  rewrite Hby in *. exists s2. split; [|split; [auto|split; [congruence|]]].
  - unfold mbind. rewrite E1. exact E2.
  - unfold se_get_grad. rewrite G2. apply vget_some. split; [lia|]. apply nth_error_lset_same.
    rewrite (inv_grad _ _ _ _ Hi1). lia.
Qed.

Lemma call_hess_ok : forall s c V dphis ddphis xs di dj, inv bs zero one s -> coefficients s dims c -> cached s dims KVal V ->
  implements KGrad bs dphis -> implements KHess bs ddphis -> List.length xs = List.length bs ->
  0 <= di < Z.of_nat (List.length bs) -> 0 <= dj < Z.of_nat (List.length bs) ->
  readable (fun j => (j =? di) || (j =? dj)) xs ->
  exists s', se_call_hess xs di dj s = RRet s' (tensor_sum S dims c (by2 V (at_point dphis xs) (at_point ddphis xs) di dj) zero) /\
    inv bs zero one s' /\ se_coeff s' = se_coeff s /\
    se_get_hess s' di dj = Ok (tensor_sum S dims c (by2 V (at_point dphis xs) (at_point ddphis xs) di dj) zero).
Proof.
  intros s c V dphis ddphis xs di dj Hi Hc HV Hd Hdd Hxs Hdi Hdj Hread. rewrite call_hess_eq.
  pose proof (Forall2_len _ _ _ _ _ Hd) as Hlp. pose proof (Forall2_len _ _ _ _ _ Hdd) as Hlq.
  assert (Hla : List.length (at_point dphis xs) = List.length bs) by (rewrite length_at_point; lia).
  assert (Hlb : List.length (at_point ddphis xs) = List.length bs) by (rewrite length_at_point; lia).
  assert (Hls : List.length dims = List.length bs) by (unfold sizes; apply map_length).
  pose proof (proj1 HV) as HlV.
  assert (Hmain : exists s1 G H, mfor (zseq (nd_order (se_coeff s)))
     (mixed_body (fun i => (i =? di) || (i =? dj)) (if di =? dj then KHess else KGrad) xs) s = RRet s1 tt /\ inv bs zero one s1 /\
     frame s s1 /\ cached s1 dims KVal V /\ (di <> dj -> cached s1 dims KGrad G) /\ (di = dj -> cached s1 dims KHess H) /\
     List.length G = List.length dims /\ List.length H = List.length dims /\
     by2 V G H di dj = by2 V (at_point dphis xs) (at_point ddphis xs) di dj).
  { destruct (di =? dj) eqn:E.
    - assert (di = dj) by lia. subst dj.
      destruct (mixed_loop (fun i => (i =? di) || (i =? di)) KHess ddphis xs s Hdd Hxs Hread Hi) as (s1 & E1 & Hi1 & Hf & Hnew & Hother).
      destruct (cached_exists s KHess Hfit Hi) as (old & Hold). pose proof (proj1 Hold) as Hlo.
      exists s1, (at_point dphis xs), (swap old di (at_point ddphis xs)).
      split; [exact E1|]. split; [auto|]. split; [auto|]. split; [apply Hother; auto; discriminate|].
      split; [congruence|]. split; [|split; [lia|split; [rewrite length_swap; lia|]]].
      + intros _. apply (Hnew old Hold); [rewrite length_swap; lia|].
        intros j Hj. rewrite nth_error_swap by lia. rewrite orb_diag. reflexivity.
      + unfold by2. rewrite Z.eqb_refl. apply swap_nth_eq. intros j.
        rewrite !nth_error_swap by (rewrite ?length_swap; lia). destruct (Z.of_nat j =? di); auto.
    - destruct (mixed_loop (fun i => (i =? di) || (i =? dj)) KGrad dphis xs s Hd Hxs Hread Hi) as (s1 & E1 & Hi1 & Hf & Hnew & Hother).
      destruct (cached_exists s KGrad Hfit Hi) as (old & Hold). pose proof (proj1 Hold) as Hlo.
      exists s1, (swap (swap old di (at_point dphis xs)) dj (at_point dphis xs)), (at_point ddphis xs).
      split; [exact E1|]. split; [auto|]. split; [auto|]. split; [apply Hother; auto; discriminate|].
      split; [|split; [lia|split; [rewrite !length_swap; lia|split; [lia|]]]].
      + intros _. apply (Hnew old Hold); [rewrite !length_swap; lia|].
        intros j Hj. rewrite !nth_error_swap by (rewrite ?length_swap; lia).
        destruct (Z.of_nat j =? di), (Z.of_nat j =? dj); reflexivity.
      + unfold by2. rewrite E. apply swap_nth_eq. intros j.
        rewrite !nth_error_swap by (rewrite ?length_swap; lia). destruct (Z.of_nat j =? di), (Z.of_nat j =? dj); auto. }
  destruct Hmain as (s1 & G & H & E1 & Hi1 & (F1 & F2 & F3 & F4) & HV1 & HG1 & HH1 & HlG & HlH & Hby).
  destruct (calc_hess_ok bs zero one Hfit s1 c V G H di dj Hi1 (coefficients_same bs _ _ _ F1 Hc) HV1 HG1 HH1 HlG HlH Hdi Hdj)
    as (s2 & row & E2 & Hi2 & V2 & C2 & B2 & G2 & R2 & L2 & H2).
  rewrite Hby in *. exists s2. split; [|split; [auto|split; [congruence|]]].
  - unfold mbind. rewrite E1. exact E2.
  - unfold se_get_hess. rewrite H2. apply vget_some in R2 as [_ R2].
    assert (E3 : vget (lset (se_hess s1) (Z.to_nat di)
        (lset row (Z.to_nat dj) (tensor_sum S dims c (by2 V (at_point dphis xs) (at_point ddphis xs) di dj) zero))) di =
        Ok (lset row (Z.to_nat dj) (tensor_sum S dims c (by2 V (at_point dphis xs) (at_point ddphis xs) di dj) zero))).
    { apply vget_some. split; [lia|]. apply nth_error_lset_same. apply nth_error_Some. congruence. }
    rewrite E3. simpl. apply vget_some. split; [lia|]. apply nth_error_lset_same. lia.
Qed.

Lemma call_grad_bad : forall s dphis xs di, int_conversion S -> inv bs zero one s -> implements KGrad bs dphis ->
  List.length xs = List.length bs -> ~ readable (fun j => j =? di) xs -> exists r, se_call_grad xs di s = RUB r.
Proof.
  intros s dphis xs di Hconv Hi Himp Hxs Hread. rewrite call_grad_eq. unfold mbind.
  destruct (mixed_loop_bad (fun i => i =? di) KGrad dphis xs s Hconv Himp Hxs Hread Hi) as (r & ->). eauto.
Qed.

Lemma call_hess_bad : forall s dphis ddphis xs di dj, int_conversion S -> inv bs zero one s -> implements KGrad bs dphis ->
  implements KHess bs ddphis -> List.length xs = List.length bs -> ~ readable (fun j => (j =? di) || (j =? dj)) xs ->
  exists r, se_call_hess xs di dj s = RUB r.
Proof.
  intros s dphis ddphis xs di dj Hconv Hi Hd Hdd Hxs Hread. rewrite call_hess_eq. unfold mbind.
  assert (He : exists r, mfor (zseq (nd_order (se_coeff s)))
     (mixed_body (fun i => (i =? di) || (i =? dj)) (if di =? dj then KHess else KGrad) xs) s = RUB r).
  { destruct (di =? dj); eapply mixed_loop_bad; eauto. }
  destruct He as (r & ->). eauto.
Qed.

End Known.
End One.
