(** Generated basis sets with their function objects do what sets of functions do. *)
From Coq Require Import ZArith String List Bool Lia.
From Verif Require Import Model.Outcome Model.Num Model.PSimple Model.Wrapper Model.BasisSet Model.PFlex Model.CExpr Model.Samples Model.SampleSet.
From Verif Require Import Spec.Basis Spec.SampleSet.
From Verif Require Import Proofs.OutcomeP Proofs.PartsP Proofs.PartsRunP.
Import ListNotations.
Local Open Scope Z_scope.

Section Sets.
Context {X A : Type} (c : setclass X A) (d : A) (F : terms X A) (CF : class_of_functions c F).
Implicit Types s : mset X A.
Implicit Types b : bset X A.

Local Notation lim := (sk_limit c).

(** All function objects present and right. *)
Definition funs (l : list (pfun X A)) : Prop :=
  forall i, (i < length l)%nat -> exists f, nth_error l i = Some (Some f) /\ term_object F (Z.of_nat i) f.

Lemma set_function_ok s i f : (i < length (ms_fs s))%nat -> term_object F (Z.of_nat i) f ->
  set_function (Some f) (Z.of_nat i) s = RRet (mkMset (ms_name s) (ms_val s) (ms_gval s) (ms_hval s) (lset (ms_fs s) i (Some f))) tt.
Proof.
  intros Hi (s0 & s1 & s2 & E0 & E1 & E2 & _). unfold set_function, mbind, mget, mlift.
  destruct (nth_error (ms_fs s) i) as [p|] eqn:E; [|apply nth_error_None in E; lia].
  rewrite (proj2 (vget_some _ (ms_fs s) (Z.of_nat i) p)) by (split; [lia|rewrite Nat2Z.id; exact E]).
  unfold pfun_assign, fl_clone, fl_copy, sf_assign. rewrite E0. cbn [obind]. rewrite vset_ok by lia. rewrite Nat2Z.id. cbn [mput].
  destruct f as [a1 a2 a3 a4 a5 a6]. simpl in *. subst a4. reflexivity.
Qed.

Lemma funs_set l i f : funs l -> term_object F (Z.of_nat i) f -> funs (lset l i (Some f)).
Proof.
  intros H T j Hj. rewrite length_lset in Hj. destruct (Nat.eq_dec i j) as [<-|N].
  - exists f. split; [apply nth_error_lset_same; exact Hj|exact T].
  - rewrite nth_error_lset_other by exact N. apply H. exact Hj.
Qed.

Lemma zseq_nat n : zseq (Z.of_nat n) = map Z.of_nat (seq 0 n).
Proof. unfold zseq. rewrite Nat2Z.id. reflexivity. Qed.

Lemma fill_loop : forall n k s, (k + n = length (ms_fs s))%nat -> Z.of_nat (k + n) <= lim ->
  (forall i, (i < k)%nat -> exists f, nth_error (ms_fs s) i = Some (Some f) /\ term_object F (Z.of_nat i) f) ->
  exists fs, mfor (map Z.of_nat (seq k n)) (fun i => do* f := mlift (sk_function c i) in set_function f i) s =
    RRet (mkMset (ms_name s) (ms_val s) (ms_gval s) (ms_hval s) fs) tt /\ length fs = length (ms_fs s) /\ funs fs.
Proof.
  induction n as [|n IH]; intros k s L B H; cbn [seq map mfor].
  - exists (ms_fs s). destruct s. simpl in *. split; [reflexivity|]. split; [reflexivity|]. intros i Hi. apply H. lia.
  - destruct CF as (_ & CF1 & _). destruct (CF1 (Z.of_nat k)) as (f & Ef & Tf); [lia|]. assert (Lk : (k < length (ms_fs s))%nat) by lia.
    assert (E : (do* f := mlift (sk_function c (Z.of_nat k)) in set_function f (Z.of_nat k)) s =
      RRet (mkMset (ms_name s) (ms_val s) (ms_gval s) (ms_hval s) (lset (ms_fs s) k (Some f))) tt).
    { unfold mbind, mlift. rewrite Ef. apply set_function_ok; [lia|exact Tf]. }
    rewrite (mb _ _ _ _ _ E). destruct (IH (S k) (mkMset (ms_name s) (ms_val s) (ms_gval s) (ms_hval s) (lset (ms_fs s) k (Some f)))) as (fs & E2 & L2 & H2); cbn [ms_fs].
    + rewrite length_lset. lia.
    + lia.
    + intros i Hi. destruct (Nat.eq_dec k i) as [<-|N].
      * exists f. split; [apply nth_error_lset_same; exact Lk|exact Tf].
      * rewrite nth_error_lset_other by exact N. apply H. lia.
    + exists fs. split; [exact E2|]. split; [|exact H2]. rewrite L2. cbn [ms_fs]. apply length_lset.
Qed.

Lemma construct_ok s N : 0 <= N <= lim -> exists fs, ms_construct c d N s =
  RRet (mkMset (sk_name c) (vresize d (ms_val s) (Z.to_nat N)) (vresize d (ms_gval s) (Z.to_nat N)) (vresize d (ms_hval s) (Z.to_nat N)) fs) tt /\
  length fs = Z.to_nat N /\ funs fs.
Proof.
  intros HN. unfold ms_construct. assert (lim <? N = false) as -> by (apply Z.ltb_ge; lia).
  set (s1 := mkMset (sk_name c) (vresize d (ms_val s) (Z.to_nat N)) (vresize d (ms_gval s) (Z.to_nat N)) (vresize d (ms_hval s) (Z.to_nat N)) (vresize None (ms_fs s) (Z.to_nat N))).
  rewrite (mb mget _ s s s eq_refl). fold s1. rewrite (mb (mput s1) _ s s1 tt eq_refl), (mb mget _ s1 s1 s1 eq_refl). unfold ms_size, s1 at 1. cbn [ms_val].
  rewrite length_vresize, zseq_nat. destruct (fill_loop (Z.to_nat N) 0 s1) as (fs & E & L & H).
  - unfold s1. cbn [ms_fs]. rewrite length_vresize. reflexivity.
  - lia.
  - intros i Hi. lia.
  - exists fs. split; [exact E|]. split; [|exact H]. rewrite L. unfold s1. cbn [ms_fs]. apply length_vresize.
Qed.

Lemma construct_exit s N : lim < N -> ms_construct c d N s = RExit.
Proof. intros H. unfold ms_construct. assert (lim <? N = true) as -> by (apply Z.ltb_lt; exact H). reflexivity. Qed.

Definition mixed (k : nat) (r s : list A) : list A := firstn k r ++ skipn k s.
Lemma firstn_next {T : Type} k (r : list T) a : nth_error r k = Some a -> firstn (S k) r = firstn k r ++ [a].
Proof. revert k. induction r as [|x r IH]; intros [|k] H; simpl in *; try discriminate; [congruence|]. rewrite <- (IH k H). reflexivity. Qed.
Lemma skipn_next {T : Type} k (r : list T) : (k < length r)%nat -> exists a, skipn k r = a :: skipn (S k) r.
Proof. revert k. induction r as [|x r IH]; intros [|k] H; simpl in *; try lia; [eauto|]. apply IH. lia. Qed.
Lemma mixed_step k (r s : list A) a : nth_error r k = Some a -> (k < length s)%nat -> vset (mixed k r s) (Z.of_nat k) a = Ok (mixed (S k) r s).
Proof.
  intros Hr Hs. assert (Lr : (k < length r)%nat) by (apply nth_error_Some; congruence). unfold mixed.
  rewrite vset_ok by (rewrite app_length, firstn_length, skipn_length; lia). rewrite Nat2Z.id. f_equal.
  rewrite (firstn_next k r a Hr). destruct (skipn_next k s Hs) as (x & ->). rewrite <- app_assoc. cbn [app].
  pose proof (lset_app_mid (firstn k r) (skipn (S k) s) x a) as L. rewrite firstn_length in L. replace (Nat.min k (length r)) with k in L by lia. exact L.
Qed.
Lemma mixed_0 (r s : list A) : mixed 0 r s = s.
Proof. reflexivity. Qed.
Lemma mixed_length k (r s : list A) : (k <= length r)%nat -> (k <= length s)%nat -> length (mixed k r s) = length s.
Proof. intros H1 H2. unfold mixed. rewrite app_length, firstn_length, skipn_length. lia. Qed.
Lemma mixed_all n (r s : list A) : length r = n -> length s = n -> mixed n r s = r.
Proof. intros <- H. unfold mixed. rewrite firstn_all, <- H, skipn_all, app_nil_r. reflexivity. Qed.
Lemma mixed_resize (r : list A) N k : (k <= length r)%nat -> (k <= N)%nat -> mixed k r (vresize d r N) = vresize d r N.
Proof.
  intros H1 H2. unfold mixed. transitivity (firstn k (vresize d r N) ++ skipn k (vresize d r N)); [|apply firstn_skipn]. f_equal.
  unfold vresize. rewrite firstn_app, firstn_firstn, firstn_length. replace (Nat.min k N) with k by lia. replace (k - Nat.min N (length r))%nat with 0%nat by lia.
  simpl. rewrite app_nil_r. reflexivity.
Qed.

Definition in_size (s : mset X A) : Prop :=
  length (ms_gval s) = length (ms_val s) /\ length (ms_hval s) = length (ms_val s) /\ length (ms_fs s) = length (ms_val s).

(** Copying the first [m] terms. *)
Lemma copy_loop r s nm : funs (ms_fs r) -> in_size r -> in_size s -> forall n k fs, (k + n <= length (ms_val r))%nat -> (k + n <= length (ms_val s))%nat ->
  length fs = length (ms_val s) -> funs fs ->
  exists fs', mfor (map Z.of_nat (seq k n)) (fun i =>
    do* s := mget in
    do* a := mlift (vget (ms_val r) i) in
    do* v := mlift (vset (ms_val s) i a) in
    do* b := mlift (vget (ms_gval r) i) in
    do* g := mlift (vset (ms_gval s) i b) in
    do* h := mlift (vget (ms_hval r) i) in
    do* w := mlift (vset (ms_hval s) i h) in
    mput (mkMset (ms_name s) v g w (ms_fs s)) ;;;
    do* f := mlift (vget (ms_fs r) i) in
    set_function f i)
    (mkMset nm (mixed k (ms_val r) (ms_val s)) (mixed k (ms_gval r) (ms_gval s)) (mixed k (ms_hval r) (ms_hval s)) fs) =
  RRet (mkMset nm (mixed (k + n) (ms_val r) (ms_val s)) (mixed (k + n) (ms_gval r) (ms_gval s)) (mixed (k + n) (ms_hval r) (ms_hval s)) fs') tt /\
  length fs' = length (ms_val s) /\ funs fs'.
Proof.
  intros Fr (R1 & R2 & R3) (S1 & S2 & S3). induction n as [|n IH]; intros k fs L1 L2 Lf Hf; cbn [seq map mfor].
  - exists fs. rewrite Nat.add_0_r. auto.
  - destruct (nth_error (ms_val r) k) as [a|] eqn:Ea; [|apply nth_error_None in Ea; lia].
    destruct (nth_error (ms_gval r) k) as [g|] eqn:Eg; [|apply nth_error_None in Eg; lia].
    destruct (nth_error (ms_hval r) k) as [h|] eqn:Eh; [|apply nth_error_None in Eh; lia].
    destruct (Fr k) as (f & Ef & Tf); [lia|].
    assert (G : forall (T : Type) (l : list T) x, nth_error l k = Some x -> vget l (Z.of_nat k) = Ok x) by (intros; apply vget_some; rewrite Nat2Z.id; split; [lia|assumption]).
    unfold mbind at 1. unfold mbind at 1. unfold mget at 1. unfold mbind at 1. unfold mlift at 1. rewrite (G _ _ _ Ea). cbn [ms_val ms_gval ms_hval ms_fs ms_name].
    unfold mbind at 1. unfold mlift at 1. rewrite (mixed_step k _ _ a Ea) by lia.
    unfold mbind at 1. unfold mlift at 1. rewrite (G _ _ _ Eg).
    unfold mbind at 1. unfold mlift at 1. rewrite (mixed_step k _ _ g Eg) by lia.
    unfold mbind at 1. unfold mlift at 1. rewrite (G _ _ _ Eh).
    unfold mbind at 1. unfold mlift at 1. rewrite (mixed_step k _ _ h Eh) by lia.
    unfold mbind at 1. unfold mput at 1.
    unfold mbind at 1. unfold mlift at 1. rewrite (G _ _ _ Ef). rewrite set_function_ok; [|cbn [ms_fs]; lia|exact Tf]. cbn [ms_val ms_gval ms_hval ms_fs ms_name].
    destruct (IH (S k) (lset fs k (Some f))) as (fs' & E & L & H); [lia|lia|rewrite length_lset; exact Lf|apply funs_set; assumption|].
    exists fs'. rewrite E. replace (S k + n)%nat with (k + S n)%nat by lia. auto.
Qed.

Lemma copy_from_ok r s : funs (ms_fs r) -> in_size r -> in_size s -> funs (ms_fs s) ->
  let m := Nat.min (length (ms_val r)) (length (ms_val s)) in
  exists fs', ms_copy_from r s =
    RRet (mkMset (ms_name r) (mixed m (ms_val r) (ms_val s)) (mixed m (ms_gval r) (ms_gval s)) (mixed m (ms_hval r) (ms_hval s)) fs') tt /\
    length fs' = length (ms_val s) /\ funs fs'.
Proof.
  intros Fr Ir Is Fs m. unfold ms_copy_from. rewrite (mb mget _ s s s eq_refl).
  set (s1 := mkMset (ms_name r) (ms_val s) (ms_gval s) (ms_hval s) (ms_fs s)). rewrite (mb (mput s1) _ s s1 tt eq_refl).
  replace (if ms_size r <? ms_size s then ms_size r else ms_size s) with (Z.of_nat m).
  2: { unfold m, ms_size. destruct (Z.ltb_spec (Z.of_nat (length (ms_val r))) (Z.of_nat (length (ms_val s)))); lia. }
  rewrite zseq_nat. exact (copy_loop r s (ms_name r) Fr Ir Is m 0 (ms_fs s) ltac:(unfold m; lia) ltac:(unfold m; lia) (proj2 (proj2 Is)) Fs).
Qed.

(** ** The relation *)

Record same (s : mset X A) (b : bset X A) : Prop := mkSame {
  sa_name : bs_name b = sk_name c /\ ms_name s = sk_name c;
  sa_limit : bs_limit b = Some lim;
  sa_fun : forall k, match k with KVal => bs_fun b | KGrad => bs_dfun b | KHess => bs_ddfun b end = F k;
  sa_val : ms_val s = bs_val b /\ ms_gval s = bs_gval b /\ ms_hval s = bs_hval b;
  sa_size : in_size s;
  sa_lim : ms_size s <= lim;
  sa_funs : funs (ms_fs s)
}.

Definition same_out (o1 : outcome (mset X A)) (o2 : outcome (bset X A)) : Prop :=
  match o1, o2 with
  | Ok s, Ok b => same s b
  | Throw e, Throw e' => e = e'
  | Exit, Exit => True
  | UB r, UB r' => r = r'
  | _, _ => False
  end.
Definition same_res {B : Type} (r1 : res (mset X A) B) (r2 : res (bset X A) B) : Prop :=
  match r1, r2 with
  | RRet s a, RRet b a' => a = a' /\ same s b
  | RThrow s e, RThrow b e' => e = e' /\ same s b
  | RExit, RExit => True
  | RUB r, RUB r' => r = r'
  | _, _ => False
  end.

Lemma new_same N : 0 <= N -> same_out (ms_new c d N) (bs_make d (sk_name c) (Some lim) (F KVal) (F KGrad) (F KHess) N).
Proof.
  intros HN. unfold ms_new, ms_base, bs_make. destruct (Z.leb_spec size_too_big N) as [Big|Small]; [reflexivity|]. cbn [obind].
  unfold constructed, bs_resize. unfold mbind at 1. unfold mget at 1. cbn [bs_limit].
  destruct (Z.ltb_spec lim N) as [Over|In].
  - rewrite construct_exit by exact Over. exact Logic.I.
  - assert (size_too_big <=? N = false) as -> by (apply Z.leb_gt; exact Small). destruct (construct_ok (mkMset "" (vresize d [] (Z.to_nat N)) (vresize d [] (Z.to_nat N)) (vresize d [] (Z.to_nat N)) []) N) as (fs & -> & L & H); [lia|].
    cbn [mput ms_val ms_gval ms_hval same_out bs_store bs_name bs_limit bs_fun bs_dfun bs_ddfun].
    assert (V : vresize d (vresize d [] (Z.to_nat N)) (Z.to_nat N) = vresize d [] (Z.to_nat N)).
    { unfold vresize at 1. rewrite length_vresize, Nat.sub_diag. simpl. rewrite app_nil_r. apply firstn_all2. rewrite length_vresize. lia. }
    rewrite V. constructor; cbn [bs_name ms_name bs_limit bs_fun bs_dfun bs_ddfun bs_val bs_gval bs_hval ms_val ms_gval ms_hval ms_fs]; auto.
    + intros [| |]; reflexivity.
    + unfold in_size. cbn [ms_val ms_gval ms_hval ms_fs]. rewrite length_vresize. auto.
    + unfold ms_size. cbn [ms_val]. rewrite length_vresize. lia.
Qed.

Lemma same_small s b : same s b -> 0 <= ms_size s <= lim /\ ms_size s < size_too_big.
Proof. intros S. destruct CF as (CL & _). pose proof (sa_lim _ _ S). unfold ms_size in *. lia. Qed.

(** The end of copy construction and assignment: everything as in [r]. *)
Lemma construct_copy r b s : same r b -> exists fs, (ms_construct c d (ms_size r) ;;; ms_copy_from r) s = RRet (mkMset (ms_name r) (ms_val r) (ms_gval r) (ms_hval r) fs) tt /\
  same (mkMset (ms_name r) (ms_val r) (ms_gval r) (ms_hval r) fs) b.
Proof.
  intros S. destruct (same_small r b S) as (L & _). destruct (construct_ok s (ms_size r) L) as (fs & E & Lf & Hf). rewrite (mb _ _ _ _ _ E).
  assert (LN : Z.to_nat (ms_size r) = length (ms_val r)) by (unfold ms_size; apply Nat2Z.id). rewrite LN in *.
  set (s1 := mkMset (sk_name c) (vresize d (ms_val s) (length (ms_val r))) (vresize d (ms_gval s) (length (ms_val r))) (vresize d (ms_hval s) (length (ms_val r))) fs).
  destruct (sa_size _ _ S) as (R1 & R2 & R3).
  destruct (copy_from_ok r s1 (sa_funs _ _ S) (sa_size _ _ S)) as (fs' & E2 & Lf' & Hf').
  - unfold in_size, s1. cbn [ms_val ms_gval ms_hval ms_fs]. rewrite !length_vresize. auto.
  - exact Hf.
  - unfold s1 in *. cbn [ms_val ms_gval ms_hval ms_fs] in *. rewrite length_vresize, Nat.min_id in *.
    rewrite (mixed_all _ (ms_val r)), (mixed_all _ (ms_gval r)), (mixed_all _ (ms_hval r)) in E2 by (rewrite ?length_vresize; auto).
    exists fs'. split; [exact E2|]. destruct S as [N1 N2 N3 N4 N5 N6 N7]. constructor; auto. unfold in_size. cbn [ms_val ms_gval ms_hval ms_fs]. auto.
Qed.

Lemma copy_same r b : same r b -> same_out (ms_copy c d r) (Ok b).
Proof.
  intros S. unfold ms_copy, ms_base. destruct (same_small r b S) as (_ & L). assert (size_too_big <=? ms_size r = false) as -> by (apply Z.leb_gt; exact L).
  cbn [obind]. unfold constructed. destruct (construct_copy r b (mkMset "" (vresize d [] (Z.to_nat (ms_size r))) (vresize d [] (Z.to_nat (ms_size r))) (vresize d [] (Z.to_nat (ms_size r))) []) S) as (fs & -> & S').
  exact S'.
Qed.

Lemma assign_same r b s b' : same r b -> same_res (ms_assign c d r s) (mput b b').
Proof. intros S. unfold ms_assign. destruct (construct_copy r b s S) as (fs & -> & S'). split; [reflexivity|exact S']. Qed.

Lemma resize_same s b N : 0 <= N -> same s b -> same_res (ms_resize c d N s) (bs_resize d N b).
Proof.
  intros HN S. unfold ms_resize. rewrite (mb mget _ s s s eq_refl). pose proof (copy_same s b S) as C.
  destruct (ms_copy c d s) as [t| | | |] eqn:Et; simpl in C; try contradiction.
  rewrite (mb (mlift (Ok t)) _ s s t eq_refl). unfold bs_resize. unfold mbind at 2. unfold mget at 1. rewrite (sa_limit _ _ S).
  destruct (Z.ltb_spec lim N) as [Over|In].
  - unfold mbind. rewrite construct_exit by exact Over. exact Logic.I.
  - destruct CF as (CL & _). assert (size_too_big <=? N = false) as -> by (apply Z.leb_gt; lia).
    destruct (construct_ok s N) as (fs & E & Lf & Hf); [lia|]. rewrite (mb _ _ _ _ _ E).
    set (s1 := mkMset (sk_name c) (vresize d (ms_val s) (Z.to_nat N)) (vresize d (ms_gval s) (Z.to_nat N)) (vresize d (ms_hval s) (Z.to_nat N)) fs).
    destruct (copy_from_ok t s1 (sa_funs _ _ C) (sa_size _ _ C)) as (fs' & E2 & Lf' & Hf').
    + unfold in_size, s1. cbn [ms_val ms_gval ms_hval ms_fs]. rewrite !length_vresize. auto.
    + exact Hf.
    + rewrite E2. cbn [mput same_res]. split; [reflexivity|]. destruct (sa_val _ _ S) as (V1 & V2 & V3), (sa_val _ _ C) as (W1 & W2 & W3).
      unfold s1 in *. cbn [ms_val ms_gval ms_hval ms_fs] in *. rewrite length_vresize in *.
      destruct (sa_size _ _ S) as (R1 & R2 & R3).
      assert (T1 : ms_val s = ms_val t) by congruence. assert (T2 : ms_gval s = ms_gval t) by congruence. assert (T3 : ms_hval s = ms_hval t) by congruence.
      rewrite T1, T2, T3 in *. rewrite !mixed_resize by lia.
      constructor; cbn [bs_store bs_name ms_name bs_limit bs_fun bs_dfun bs_ddfun bs_val bs_gval bs_hval ms_val ms_gval ms_hval ms_fs].
      * split; [exact (proj1 (sa_name _ _ S))|exact (proj2 (sa_name _ _ C))].
      * exact (sa_limit _ _ S).
      * exact (sa_fun _ _ S).
      * rewrite W1, W2, W3. auto.
      * unfold in_size. cbn [ms_val ms_gval ms_hval ms_fs]. rewrite !length_vresize. auto.
      * unfold ms_size. cbn [ms_val]. rewrite length_vresize. lia.
      * exact Hf'.
Qed.

(** Evaluation of one function object. *)
Definition fl_do (k : kind) (x : X) : M (flex X A) A :=
  match k with KVal => fl_call x | KGrad => fl_call_grad x 0 | KHess => fl_call_hess x 0 0 end.
Lemma fl_do_ok k x i f a : term_object F i f -> F k i x = Ok a -> exists f', fl_do k x f = RRet f' a /\ term_object F i f'.
Proof.
  intros (s0 & s1 & s2 & E0 & E1 & E2 & H0 & H1 & H2) Ea. destruct f as [n v de fv fg fh]. simpl in E0, E1, E2. subst fv fg fh.
  destruct k; simpl.
  - unfold fl_call, on_fval, sf_do, sp_call, mbind, mget, mlift, mput, mret. simpl. rewrite H0, Ea. eexists. split; [reflexivity|].
    exists (mkSimple (sp_name s0) (sp_eval s0) (Some a)), s1, s2. simpl. auto 10.
  - unfold fl_call_grad, on_fgrad, on_elem, sf_do, sp_call, mbind, mget, mlift, mput, mret. simpl. rewrite H1, Ea. eexists. split; [reflexivity|].
    exists s0, (mkSimple (sp_name s1) (sp_eval s1) (Some a)), s2. simpl. auto 10.
  - unfold fl_call_hess, on_fhess, on_elem, sf_do, sp_call, mbind, mget, mlift, mput, mret. simpl. rewrite H2, Ea. eexists. split; [reflexivity|].
    exists s0, s1, (mkSimple (sp_name s2) (sp_eval s2) (Some a)). simpl. auto 10.
Qed.

Definition obj_call (k : kind) : Z -> X -> M (mset X A) A := match k with KVal => ms_call | KGrad => ms_call_grad | KHess => ms_call_hess end.
Definition obj_eval (k : kind) : X -> M (mset X A) (list A) := match k with KVal => ms_eval | KGrad => ms_eval_grad | KHess => ms_eval_hess end.
Definition obj_vals (k : kind) s : list A := match k with KVal => ms_val s | KGrad => ms_gval s | KHess => ms_hval s end.
Definition obj_put (k : kind) s (v : list A) : mset X A :=
  match k with
  | KVal => mkMset (ms_name s) v (ms_gval s) (ms_hval s) (ms_fs s)
  | KGrad => mkMset (ms_name s) (ms_val s) v (ms_hval s) (ms_fs s)
  | KHess => mkMset (ms_name s) (ms_val s) (ms_gval s) v (ms_fs s)
  end.
Lemma obj_call_is k t x : obj_call k t x = (do* a := on_term t (fl_do k x) in do* s := mget in do* v := mlift (vset (obj_vals k s) t a) in mput (obj_put k s v) ;;; mret a).
Proof. destruct k; reflexivity. Qed.
Definition val_vals (k : kind) b : list A := match k with KVal => bs_val b | KGrad => bs_gval b | KHess => bs_hval b end.
Definition val_put (k : kind) b (v : list A) : bset X A :=
  match k with KVal => bs_store b v (bs_gval b) (bs_hval b) | KGrad => bs_store b (bs_val b) v (bs_hval b) | KHess => bs_store b (bs_val b) (bs_gval b) v end.
Lemma val_call_is k t x : bevaluate k t x = (do* b := mget in do* a := mlift (match k with KVal => bs_fun b | KGrad => bs_dfun b | KHess => bs_ddfun b end t x) in
  do* v := mlift (vset (val_vals k b) t a) in mput (val_put k b v) ;;; mret a).
Proof. destruct k; reflexivity. Qed.

Lemma same_vals k s b : same s b -> obj_vals k s = val_vals k b /\ length (obj_vals k s) = length (ms_val s).
Proof. intros S. destruct (sa_val _ _ S) as (V1 & V2 & V3), (sa_size _ _ S) as (R1 & R2 & R3). destruct k; simpl; auto. Qed.

Lemma call_same k t x s b : same s b -> same_res (obj_call k t x s) (bevaluate k t x b).
Proof.
  intros S. rewrite obj_call_is, val_call_is. destruct (same_vals k s b S) as (EV & LV). destruct (sa_size _ _ S) as (R1 & R2 & R3). destruct CF as (CL & _ & CT & CO).
  unfold mbind at 5. unfold mget at 2. unfold mbind at 5. unfold mlift at 2. rewrite (sa_fun _ _ S k).
  destruct (Z_le_dec 0 t) as [P|P]; [destruct (Z_lt_dec t (ms_size s)) as [Q|Q]|].
  - (* one of the terms *)
    pose proof (sa_lim _ _ S) as LL. destruct (CT k t x) as (a & Ea); [lia|]. rewrite Ea.
    destruct (sa_funs _ _ S (Z.to_nat t)) as (f & Ef & Tf); [unfold ms_size in Q; lia|]. rewrite Z2Nat.id in Tf by exact P.
    destruct (fl_do_ok k x t f a Tf Ea) as (f' & Ef' & Tf').
    set (s1 := mkMset (ms_name s) (ms_val s) (ms_gval s) (ms_hval s) (lset (ms_fs s) (Z.to_nat t) (Some f'))).
    assert (E1 : on_term t (fl_do k x) s = RRet s1 a).
    { unfold on_term, on_elem. rewrite (proj2 (vget_some _ (ms_fs s) t (Some f)) (conj P Ef)). unfold pfun_do. rewrite Ef'. reflexivity. }
    rewrite (mb _ _ _ _ _ E1), (mb mget _ s1 s1 s1 eq_refl). replace (obj_vals k s1) with (obj_vals k s) by (destruct k; reflexivity).
    rewrite <- EV. rewrite vset_ok by (unfold ms_size in Q; lia). cbn [mlift mbind mput mret same_res]. unfold mbind, mput, mret, mlift. cbn [same_res]. split; [reflexivity|].
    destruct S as [N1 N2 N3 (N41 & N42 & N43) N5 N6 N7].
    assert (FS : funs (ms_fs s1)) by (unfold s1; cbn [ms_fs]; apply funs_set; [exact N7|rewrite Z2Nat.id by exact P; exact Tf']).
    destruct k; constructor; cbn [obj_put val_put obj_vals s1 bs_store bs_name ms_name bs_limit bs_fun bs_dfun bs_ddfun bs_val bs_gval bs_hval ms_val ms_gval ms_hval ms_fs]; auto;
      unfold in_size, ms_size; cbn [ms_val ms_gval ms_hval ms_fs]; rewrite ?length_lset; auto; rewrite ?N41, ?N42, ?N43; auto;
      rewrite <- ?N41, <- ?N42, <- ?N43; auto.
  - assert (E1 : on_term t (fl_do k x) s = RUB UBOutOfBounds).
    { unfold on_term, on_elem. rewrite vget_out; [reflexivity|]. unfold ms_size in Q. rewrite R3. lia. }
    unfold mbind at 1. rewrite E1. destruct (Z_lt_dec t lim) as [Z1|Z1].
    + destruct (CT k t x) as (a & ->); [lia|]. unfold mbind, mlift. unfold vset. rewrite <- EV, LV. unfold ms_size in Q.
      destruct (Z.leb_spec 0 t); destruct (Z.ltb_spec t (Z.of_nat (length (ms_val s)))); try lia. reflexivity.
    + rewrite CO by lia. reflexivity.
  - assert (E1 : on_term t (fl_do k x) s = RUB UBOutOfBounds).
    { unfold on_term, on_elem. rewrite vget_out; [reflexivity|]. lia. }
    unfold mbind at 1. rewrite E1. rewrite CO by lia. reflexivity.
Qed.

Lemma same_bind {B C : Type} (f1 : M (mset X A) B) (f2 : M (bset X A) B) (k1 : B -> M (mset X A) C) (k2 : B -> M (bset X A) C) s b :
  same_res (f1 s) (f2 b) -> (forall a s' b', same s' b' -> same_res (k1 a s') (k2 a b')) -> same_res (mbind f1 k1 s) (mbind f2 k2 b).
Proof.
  unfold mbind. destruct (f1 s), (f2 b); simpl; try contradiction; auto. intros [-> S] H. apply H. exact S.
Qed.
Lemma same_for {B : Type} (l : list B) f1 f2 s b : same s b -> (forall a s' b', same s' b' -> same_res (f1 a s') (f2 a b')) -> same_res (mfor l f1 s) (mfor l f2 b).
Proof.
  intros S H. revert s b S. induction l as [|a l IH]; intros s b S; simpl; [auto|]. apply same_bind; [apply H; exact S|]. intros _ s' b' S'. apply IH. exact S'.
Qed.

Lemma eval_same k x s b : same s b -> same_res (obj_eval k x s) (bevaluate_all k x b).
Proof.
  intros S. assert (EZ : ms_size s = bs_size b) by (unfold ms_size, bs_size; rewrite (proj1 (sa_val _ _ S)); reflexivity).
  assert (G : same_res ((mfor (zseq (ms_size s)) (fun i => obj_call k i x ;;; mret tt) ;;; do* s' := mget in mret (obj_vals k s')) s)
                       ((mfor (zseq (bs_size b)) (fun i => bevaluate k i x ;;; mret tt) ;;; do* b' := mget in mret (val_vals k b')) b)).
  { rewrite EZ. apply same_bind; [|intros _ s' b' S'; simpl; split; [exact (proj1 (same_vals k s' b' S'))|exact S']].
    apply same_for; [exact S|]. intros i s' b' S'. apply same_bind; [apply call_same; exact S'|]. intros a s2 b2 S2. simpl. auto. }
  destruct k; exact G.
Qed.

(** ** Programs *)

Definition rel_opt (o : option (mset X A)) (o' : option (bset X A)) : Prop :=
  match o, o' with Some s, Some b => same s b | None, None => True | _, _ => False end.
Definition rel_heap (h : heap (mset X A)) (h' : heap (bset X A)) : Prop := Forall2 rel_opt h h'.

Lemma rel_read h h' x : rel_heap h h' -> (exists s b, h_read h x = Ok s /\ h_read h' x = Ok b /\ same s b) \/ (h_read h x = UB UBDangling /\ h_read h' x = UB UBDangling).
Proof.
  intros H. unfold h_read. revert x. induction H as [|o o' h h' H F' IH]; intros [|x]; simpl; auto.
  destruct o as [s|], o' as [b|]; simpl in H; try contradiction; [left; exists s, b; auto|auto].
Qed.
Lemma rel_lset h h' x o o' : rel_heap h h' -> rel_opt o o' -> rel_heap (lset h x o) (lset h' x o').
Proof.
  intros H Ho. revert x. induction H as [|p p' h h' H F' IH]; intros [|x]; simpl; try constructor; auto. apply IH.
Qed.

Definition rel_step (r1 : outcome (heap (mset X A) * set_answer A)) (r2 : outcome (heap (bset X A) * set_answer A)) : Prop :=
  match r1, r2 with
  | Ok (h, a), Ok (h', a') => a = a' /\ rel_heap h h'
  | Exit, Exit => True
  | UB r, UB r' => r = r'
  | _, _ => False
  end.

Lemma with_rel {B : Type} x (f1 : M (mset X A) B) (f2 : M (bset X A) B) g h h' : rel_heap h h' -> (forall s b, same s b -> same_res (f1 s) (f2 b)) ->
  rel_step (with_set x f1 g h) (with_set x f2 g h').
Proof.
  intros H G. unfold with_set. destruct (rel_read h h' x H) as [(s & b & -> & -> & S)|(-> & ->)]; [|reflexivity]. cbn [obind]. specialize (G s b S).
  destruct (f1 s), (f2 b); simpl in G |- *; try contradiction; auto; destruct G as [-> S']; split; auto; apply rel_lset; auto.
Qed.
Lemma made_rel o o' h h' : rel_heap h h' -> same_out o o' -> rel_step (made o h) (made o' h').
Proof.
  intros H G. destruct o, o'; simpl in G |- *; try contradiction; auto.
  - split; [reflexivity|]. unfold h_new. apply Forall2_app; [exact H|]. constructor; [exact G|constructor].
  - subst. auto.
Qed.

Lemma step_rel_ok o h h' : unsigned_sizes o -> rel_heap h h' ->
  rel_step (set_step (object_methods c d) o h) (set_step (family_methods (sk_name c) lim d F) o h').
Proof.
  intros U H. destruct o as [n|x|x y|x|x n|x k t v|x k v|x k t|x]; simpl in U; cbn [set_step].
  - apply made_rel; [exact H|]. apply new_same. exact U.
  - destruct (rel_read h h' x H) as [(s & b & -> & -> & S)|(-> & ->)]; [|reflexivity]. cbn [obind]. apply made_rel; [exact H|]. apply copy_same. exact S.
  - destruct (rel_read h h' x H) as [(s & b & -> & -> & S)|(-> & ->)]; [|reflexivity]. cbn [obind].
    destruct (rel_read h h' y H) as [(r & q & -> & -> & S')|(-> & ->)]; [|reflexivity]. cbn [obind].
    destruct (Nat.eqb x y); [split; [reflexivity|exact H]|]. apply with_rel; [exact H|]. intros s2 b2 _. apply assign_same. exact S'.
  - destruct (rel_read h h' x H) as [(s & b & -> & -> & S)|(-> & ->)]; [|reflexivity]. cbn [obind]. split; [reflexivity|]. apply rel_lset; [exact H|exact Logic.I].
  - apply with_rel; [exact H|]. intros s b S. apply resize_same; assumption.
  - apply with_rel; [exact H|]. intros s b S. exact (call_same k t v s b S).
  - apply with_rel; [exact H|]. intros s b S. exact (eval_same k v s b S).
  - destruct (rel_read h h' x H) as [(s & b & -> & -> & S)|(-> & ->)]; [|reflexivity]. cbn [obind].
    assert (G : me_get (object_methods c d) s k t = vget (obj_vals k s) t) by (destruct k; reflexivity). rewrite G.
    assert (G' : me_get (family_methods (sk_name c) lim d F) b k t = vget (val_vals k b) t) by (destruct k; reflexivity). rewrite G'. rewrite (proj1 (same_vals k s b S)).
    unfold vget. destruct (0 <=? t); [destruct (nth_error (val_vals k b) (Z.to_nat t))|]; simpl; auto.
  - destruct (rel_read h h' x H) as [(s & b & -> & -> & S)|(-> & ->)]; [|reflexivity]. cbn [obind]. split; [|exact H].
    simpl. unfold ms_size, bs_size. rewrite (proj1 (sa_val _ _ S)). reflexivity.
Qed.

Definition rel_run (r1 : outcome (heap (mset X A) * list (set_answer A))) (r2 : outcome (heap (bset X A) * list (set_answer A))) : Prop :=
  match r1, r2 with
  | Ok (h, a), Ok (h', a') => a = a' /\ rel_heap h h'
  | Exit, Exit => True
  | UB r, UB r' => r = r'
  | _, _ => False
  end.
Lemma run_rel_ok os : Forall unsigned_sizes os -> forall h h', rel_heap h h' ->
  rel_run (set_run (object_methods c d) os h) (set_run (family_methods (sk_name c) lim d F) os h').
Proof.
  induction 1 as [|o os U FU IH]; intros h h' H; simpl; [auto|]. pose proof (step_rel_ok o h h' U H) as G.
  destruct (set_step (object_methods c d) o h) as [[h1 a]| | | |], (set_step (family_methods (sk_name c) lim d F) o h') as [[h1' a']| | | |]; simpl in G |- *; try contradiction; auto.
  destruct G as [-> H1]. specialize (IH h1 h1' H1).
  destruct (set_run (object_methods c d) os h1) as [[h2 l]| | | |], (set_run (family_methods (sk_name c) lim d F) os h1') as [[h2' l']| | | |]; simpl in IH |- *; try contradiction; auto.
  destruct IH as [-> H2]. auto.
Qed.

Lemma sets_are_families os : Forall unsigned_sizes os -> seen (object_methods c d) os = seen (family_methods (sk_name c) lim d F) os.
Proof.
  intros U. pose proof (run_rel_ok os U [] [] (Forall2_nil _)) as G. unfold seen.
  destruct (set_run (object_methods c d) os []) as [[h1 a]| | | |], (set_run (family_methods (sk_name c) lim d F) os []) as [[h1' a']| | | |]; simpl in G |- *; try contradiction; try congruence.
  destruct G as [-> _]. reflexivity.
Qed.
End Sets.
