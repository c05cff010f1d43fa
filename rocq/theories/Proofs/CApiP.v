(** Proofs about C handles. *)
From Coq Require Import ZArith List Bool Lia Arith.
From Verif Require Import Model.Outcome Model.BasisSet Model.Wrapper Model.CApi Spec.Ownership Spec.Handles Proofs.OutcomeP Proofs.FuncObjP Proofs.WrapperP.
Import ListNotations.

Lemma live_snoc : forall (A : Type) (l : list (option A)) x, live (l ++ [Some x]) = S (live l).
Proof. induction l as [|[y|] l IH]; intros x; cbn; [reflexivity|rewrite IH; reflexivity|apply IH]. Qed.
Lemma live_none : forall (A : Type) (l : list (option A)) k x, nth_error l k = Some (Some x) -> live l = S (live (lset l k None)).
Proof. induction l as [|c l IH]; intros [|k] x H; cbn in *; try discriminate; [injection H as ->; reflexivity|]. destruct c; rewrite (IH _ _ H); reflexivity. Qed.
Lemma live_none_none : forall (A : Type) (l : list (option A)) k, nth_error l k = Some None -> live (lset l k None) = live l.
Proof. induction l as [|c l IH]; intros [|k] H; cbn in *; try discriminate; [injection H as ->; reflexivity|]. destruct c; rewrite (IH _ H); reflexivity. Qed.
Lemma live_some_none : forall (A : Type) (l : list (option A)) k x, nth_error l k = Some None -> live (lset l k (Some x)) = S (live l).
Proof. induction l as [|c l IH]; intros [|k] x H; cbn in *; try discriminate; [injection H as ->; reflexivity|]. destruct c; rewrite (IH _ _ H); reflexivity. Qed.
Lemma live_some_some : forall (A : Type) (l : list (option A)) k x y, nth_error l k = Some (Some x) -> live (lset l k (Some y)) = live l.
Proof. induction l as [|c l IH]; intros [|k] x y H; cbn in *; try discriminate; [injection H as ->; reflexivity|]. destruct c; rewrite (IH _ _ y H); reflexivity. Qed.

Section P.
Context {T B : Type}.
Implicit Types (s : cstate T) (v : chandles T).

Lemma handle_cases : forall s v k, stands_for s v -> k < length (ch v) ->
  (nth_error (c_handles s) k = Some None /\ nth_error (ch v) k = Some None) \/
  (exists a x, nth_error (c_handles s) k = Some (Some a) /\ nth_error (ch v) k = Some (Some x) /\ nth_error (c_heap s) a = Some (Some x)).
Proof.
  intros s v k R Hk. assert (H := sf_handles _ _ R k). destruct (nth_error (ch v) k) as [[x|]|] eqn:E.
  - destruct (nth_error (c_handles s) k) as [[a|]|]; try contradiction. right. exists a, x. auto.
  - destruct (nth_error (c_handles s) k) as [[a|]|]; try contradiction. left. auto.
  - apply nth_error_None in E. lia.
Qed.

Lemma sf_fill : forall s v k x, stands_for s v -> k < length (ch v) ->
  stands_for (mkC (c_heap s ++ [Some x]) (lset (c_handles s) k (Some (length (c_heap s))))) (fill v k x).
Proof.
  intros s v k x R Hk. assert (C := handle_cases _ _ _ R Hk). destruct R as [R1 R2 R3]. constructor; cbn [c_heap c_handles fill ch lost].
  - intros j. rewrite !nth_lset. destruct (Nat.eqb_spec k j) as [->|Hn].
    + destruct C as [[-> ->]|(a & y & -> & -> & _)]; rewrite nth_snoc, Nat.eqb_refl; reflexivity.
    + specialize (R1 j). destruct (nth_error (c_handles s) j) as [[a|]|]; auto. destruct (nth_error (ch v) j) as [[y|]|]; auto.
      rewrite nth_snoc. assert (a < length (c_heap s)) by (eapply nth_len; eauto). destruct (Nat.eqb_spec a (length (c_heap s))); [lia|exact R1].
  - assert (Hb : forall j a, nth_error (c_handles s) j = Some (Some a) -> a < length (c_heap s)).
    { intros j a E. specialize (R1 j). rewrite E in R1. destruct (nth_error (ch v) j) as [[y|]|]; try contradiction. eapply nth_len; eauto. }
    assert (Ek : exists p, nth_error (c_handles s) k = Some p) by (destruct C as [[-> _]|(a & y & -> & _)]; eauto). destruct Ek as (p & Ek).
    intros j j' a. rewrite !nth_lset. destruct (Nat.eqb_spec k j) as [<-|Hn], (Nat.eqb_spec k j') as [<-|Hn']; auto; rewrite ?Ek.
    + intros E1 E2. injection E1 as <-. apply Hb in E2. lia.
    + intros E1 E2. injection E2 as <-. apply Hb in E1. lia.
    + intros E1 E2. eapply R2; eauto.
  - rewrite live_snoc, R3. unfold in_use. destruct C as [[_ E]|(a & y & _ & E & _)]; rewrite E.
    + rewrite (live_some_none _ _ _ _ E). lia.
    + rewrite (live_some_some _ _ _ _ x E). lia.
Qed.

Lemma sf_update : forall s v k a x y, stands_for s v -> nth_error (c_handles s) k = Some (Some a) -> nth_error (ch v) k = Some (Some x) ->
  stands_for (mkC (lset (c_heap s) a (Some y)) (c_handles s)) (mkH (lset (ch v) k (Some y)) (lost v)).
Proof.
  intros s v k a x y R Ha Hx. assert (Hh := sf_handles _ _ R k). rewrite Ha, Hx in Hh. destruct R as [R1 R2 R3].
  constructor; cbn [c_heap c_handles ch lost].
  - intros j. rewrite nth_lset. destruct (Nat.eqb_spec k j) as [<-|Hn].
    + rewrite Ha, Hx. rewrite nth_lset, Nat.eqb_refl, Hh. reflexivity.
    + specialize (R1 j). destruct (nth_error (c_handles s) j) as [[b|]|] eqn:E; auto. destruct (nth_error (ch v) j) as [[z|]|]; auto.
      rewrite nth_lset. destruct (Nat.eqb_spec a b) as [->|Hb]; [|exact R1]. exfalso. apply Hn. eapply R2; eauto.
  - exact R2.
  - rewrite (live_some_some _ _ _ _ y Hh), R3, (live_some_some _ _ _ _ y Hx). reflexivity.
Qed.



Lemma sf_clear : forall s v k a x, stands_for s v -> nth_error (c_handles s) k = Some (Some a) -> nth_error (ch v) k = Some (Some x) ->
  stands_for (mkC (lset (c_heap s) a None) (lset (c_handles s) k None)) (mkH (lset (ch v) k None) (lost v)).
Proof.
  intros s v k a x R Ha Hx. assert (Hh := sf_handles _ _ R k). rewrite Ha, Hx in Hh. destruct R as [R1 R2 R3].
  constructor; cbn [c_heap c_handles ch lost].
  - intros j. rewrite !nth_lset. destruct (Nat.eqb_spec k j) as [<-|Hn]; [rewrite Ha, Hx; exact I|].
    specialize (R1 j). destruct (nth_error (c_handles s) j) as [[b|]|] eqn:E; auto. destruct (nth_error (ch v) j) as [[z|]|]; auto.
    rewrite nth_lset. destruct (Nat.eqb_spec a b) as [->|Hb]; [|exact R1]. exfalso. apply Hn. eapply R2; eauto.
  - intros j j' b. rewrite !nth_lset. destruct (Nat.eqb_spec k j) as [<-|Hn]; [rewrite Ha; discriminate|].
    destruct (Nat.eqb_spec k j') as [<-|Hn']; [rewrite Ha; discriminate|]. apply R2.
  - apply live_none in Hh. apply live_none in Hx. lia.
Qed.

(** delete never fails, and nulls the handle. *)
Lemma delete_ok : forall s v k, stands_for s v -> k < length (ch v) ->
  exists s', c_delete k s = RRet s' tt /\ nth_error (c_handles s') k = Some None /\ stands_for s' (mkH (lset (ch v) k None) (lost v)).
Proof.
  intros s v k R Hk. unfold c_delete, mbind, mget, mlift, c_handle. destruct (handle_cases _ _ _ R Hk) as [[E1 E2]|(a & x & E1 & E2 & E3)]; rewrite E1.
  - cbn. eexists. split; [reflexivity|]. unfold c_put. cbn. split; [rewrite nth_lset, Nat.eqb_refl, E1; reflexivity|].
    rewrite (lset_self _ _ _ _ E1), (lset_self _ _ _ _ E2). destruct s, v. exact R.
  - unfold h_delete. rewrite E3. cbn. eexists. split; [reflexivity|]. unfold c_put. cbn.
    split; [rewrite nth_lset, Nat.eqb_refl, E1; reflexivity|]. eapply sf_clear; eauto.
Qed.

Lemma cstep_ok : forall s v (o : cop T B) r v', stands_for s v -> cstep v o r v' ->
  exists s', (cdo o s = RRet s' r \/ exists e, r = Raised e /\ cdo o s = RThrow s' e) /\ stands_for s' v'.
Proof.
  intros s v o r v' R H.
  destruct H as [v k x Hk|v k e Hk|v k x y init Hk Hi|v k x y e init Hk Hi|v k Hk|v k m x y b Hx Hm|v k m x y e Hx Hm].
  - assert (E : exists p, nth_error (c_handles s) k = Some p) by (destruct (handle_cases _ _ _ R Hk) as [[-> _]|(a & z & -> & _)]; eauto).
    destruct E as (p & E). eexists. split; [left|apply sf_fill; eauto]. cbn [cdo]. unfold c_new, mbind, mget, mlift, c_handle. rewrite E. reflexivity.
  - assert (E : exists p, nth_error (c_handles s) k = Some p) by (destruct (handle_cases _ _ _ R Hk) as [[-> _]|(a & z & -> & _)]; eauto).
    destruct E as (p & E). exists s. split; [right; exists e; split; [reflexivity|]|exact R]. cbn [cdo]. unfold c_new, mbind, mget, mlift, c_handle. rewrite E. reflexivity.
  - assert (E : exists p, nth_error (c_handles s) k = Some p) by (destruct (handle_cases _ _ _ R Hk) as [[-> _]|(a & z & -> & _)]; eauto).
    destruct E as (p & E). eexists. split; [left|apply sf_fill; eauto]. cbn [cdo]. unfold c_new_then, mbind, mget, mlift, c_handle. rewrite E. cbn. rewrite Hi. reflexivity.
  - assert (E : exists p, nth_error (c_handles s) k = Some p) by (destruct (handle_cases _ _ _ R Hk) as [[-> _]|(a & z & -> & _)]; eauto).
    destruct E as (p & E). eexists. split; [right; exists e; split; [reflexivity|]|apply sf_fill; eauto].
    cbn [cdo]. unfold c_new_then, mbind, mget, mlift, c_handle. rewrite E. cbn. rewrite Hi. reflexivity.
  - destruct (delete_ok _ _ _ R Hk) as (s' & E & _ & R'). exists s'. split; [left|exact R']. cbn [cdo]. unfold mbind. rewrite E. reflexivity.
  - assert (Hk : k < length (ch v)) by (eapply nth_len; eauto). destruct (handle_cases _ _ _ R Hk) as [[_ E2]|(a & z & E1 & E2 & E3)]; [congruence|].
    assert (z = x) as -> by congruence. eexists. split; [left|eapply sf_update; eauto].
    cbn [cdo]. unfold c_call, mbind, mget, mlift, c_handle. rewrite E1. cbn. unfold h_read. rewrite E3, Hm. reflexivity.
  - assert (Hk : k < length (ch v)) by (eapply nth_len; eauto). destruct (handle_cases _ _ _ R Hk) as [[_ E2]|(a & z & E1 & E2 & E3)]; [congruence|].
    assert (z = x) as -> by congruence. eexists. split; [right; exists e; split; [reflexivity|]|eapply sf_update; eauto].
    cbn [cdo]. unfold c_call, mbind, mget, mlift, c_handle. rewrite E1. cbn. unfold h_read. rewrite E3, Hm. reflexivity.
Qed.

Lemma crun_ok : forall v (os : list (cop T B)) rs v', csteps v os rs v' -> forall s, stands_for s v ->
  exists s', crun os s = Ok (rs, s') /\ stands_for s' v'.
Proof.
  intros v os rs v' H. induction H as [v|v o r v1 os rs v2 Hs H IH]; intros s R.
  - exists s. split; [reflexivity|exact R].
  - destruct (cstep_ok _ _ _ _ _ R Hs) as (s1 & E & R1). destruct (IH s1 R1) as (s2 & E2 & R2). exists s2. split; [|exact R2].
    cbn [crun]. destruct E as [->|(e & -> & ->)]; cbn; rewrite E2; reflexivity.
Qed.

Lemma start_stands : forall n, stands_for (T := T) (cstart n) (mkH (repeat None n) 0).
Proof.
  intros n. constructor; cbn [cstart c_heap c_handles ch lost].
  - intros k. destruct (Nat.lt_ge_cases k n).
    + rewrite !nth_error_repeat; auto.
    + assert (E : forall A (a : A), nth_error (repeat a n) k = None) by (intros; apply nth_error_None; rewrite repeat_length; lia). rewrite !E. exact I.
  - intros k k' a E. apply nth_error_In, repeat_spec in E. discriminate.
  - induction n; cbn; auto.
Qed.

Lemma handles_ok : forall n (os : list (cop T B)) rs v, csteps (mkH (repeat None n) 0) os rs v ->
  exists s, crun os (cstart n) = Ok (rs, s) /\ stands_for s v.
Proof. intros n os rs v H. exact (crun_ok _ _ _ _ H _ (start_stands n)). Qed.

(** After any program: delete nulls the handle and frees one object if there was one; a second delete changes nothing. *)
Lemma csteps_len : forall v (os : list (cop T B)) rs v', csteps v os rs v' -> length (ch v') = length (ch v).
Proof. intros v os rs v' H. induction H as [|v o r v1 os rs v2 Hs H IH]; auto. rewrite IH. destruct Hs; cbn; auto; apply length_lset. Qed.

Lemma delete_twice : forall n (os : list (cop T B)) rs v s k, csteps (mkH (repeat None n) 0) os rs v -> crun os (cstart n) = Ok (rs, s) -> k < n ->
  exists s', c_delete k s = RRet s' tt /\ nth_error (c_handles s') k = Some None /\ live (c_heap s) = in_use v k + live (c_heap s') /\
    c_delete k s' = RRet s' tt.
Proof.
  intros n os rs v s k H E Hk. destruct (handles_ok _ _ _ _ H) as (s0 & E0 & R). rewrite E in E0. injection E0 as <-.
  assert (Hk' : k < length (ch v)) by (rewrite (csteps_len _ _ _ _ H); cbn; rewrite repeat_length; exact Hk).
  destruct (delete_ok _ _ _ R Hk') as (s' & E' & E1 & R'). exists s'. repeat split; auto.
  - rewrite (sf_count _ _ R), (sf_count _ _ R'). cbn. unfold in_use. destruct (nth_error (ch v) k) as [[x|]|] eqn:Ex.
    + rewrite (live_none _ _ _ _ Ex). lia.
    + rewrite (live_none_none _ _ _ Ex). lia.
    + apply nth_error_None in Ex. lia.
  - unfold c_delete, mbind, mget, mlift, c_handle. rewrite E1. cbn. unfold mput, mmod, c_put. cbn. rewrite (lset_self _ _ _ _ E1). destruct s'. reflexivity.
Qed.

(** Everything is freed when no handle is in use and none was overwritten. *)
Lemma live_zero : forall (A : Type) (l : list (option A)), live l = 0 -> Forall (fun c => c = None) l.
Proof. induction l as [|[x|] l IH]; intros H; constructor; try discriminate; auto. Qed.
Lemma live_nones : forall (A : Type) (l : list (option A)), Forall (fun c => c = None) l -> live l = 0.
Proof. intros A l H. induction H; cbn; auto. subst. exact IHForall. Qed.
Lemma all_deleted : forall n (os : list (cop T B)) rs v, csteps (mkH (repeat None n) 0) os rs v ->
  Forall (fun c => c = None) (ch v) -> exists s, crun os (cstart n) = Ok (rs, s) /\ live (c_heap s) = lost v.
Proof.
  intros n os rs v H Hn. destruct (handles_ok _ _ _ _ H) as (s & E & R). exists s. split; auto. rewrite (sf_count _ _ R), (live_nones _ _ Hn). reflexivity.
Qed.

(** Calling through NULL. *)
Lemma call_null : forall n (os : list (cop T B)) rs v s k (m : M T B), csteps (mkH (repeat None n) 0) os rs v -> crun os (cstart n) = Ok (rs, s) ->
  nth_error (ch v) k = Some None -> c_call k m s = RUB UBNull.
Proof.
  intros n os rs v s k m H E Hk. destruct (handles_ok _ _ _ _ H) as (s0 & E0 & R). rewrite E in E0. injection E0 as <-.
  assert (Hl : k < length (ch v)) by (eapply nth_len; eauto). destruct (handle_cases _ _ _ R Hl) as [[E1 _]|(a & x & _ & E2 & _)]; [|congruence].
  unfold c_call, mbind, mget, mlift, c_handle. rewrite E1. reflexivity.
Qed.
End P.

(** ** Sizes through the int parameters *)
Local Open Scope Z_scope.
Lemma size_to_int_small : forall n, 0 <= n <= INT_MAX -> size_to_int n = n.
Proof.
  intros n H. unfold size_to_int, INT_MAX in *. rewrite Z.mod_small by lia. destruct (Z.ltb_spec n (2 ^ 31)); lia.
Qed.
Lemma max_size_limit : forall (X A : Type) (b : bset X A) l, bs_limit b = Some l -> 0 <= l <= INT_MAX -> dd_max_size b = l.
Proof. intros X A b l H Hl. unfold dd_max_size, bs_max_size. rewrite H. apply size_to_int_small. exact Hl. Qed.
Lemma max_size_none : forall (X A : Type) (b : bset X A), bs_limit b = None -> dd_max_size b = -1.
Proof. intros X A b H. unfold dd_max_size, bs_max_size. rewrite H. reflexivity. Qed.
Lemma size_through : forall (X A : Type) (b : bset X A), Z.of_nat (List.length (bs_val b)) <= INT_MAX -> dd_size b = Z.of_nat (List.length (bs_val b)).
Proof. intros X A b H. unfold dd_size, bs_size. apply size_to_int_small. lia. Qed.

Lemma resize_through : forall (X A : Type) (d : A) (b : bset X A) N, 0 <= N <= INT_MAX -> (forall l, bs_limit b = Some l -> N <= l) ->
  exists b', dd_resize d N b = RRet b' tt /\ dd_size b' = N /\ bs_limit b' = bs_limit b.
Proof.
  intros X A d b N HN Hl. unfold dd_resize, int_to_size, bs_resize, mbind, mget. unfold INT_MAX in HN. rewrite Z.mod_small by lia.
  replace (match bs_limit b with Some l => l <? N | None => false end) with false
    by (destruct (bs_limit b) as [l|]; [specialize (Hl l eq_refl); lia|reflexivity]).
  replace (size_too_big <=? N) with false by (symmetry; apply Z.leb_gt; unfold size_too_big; lia).
  eexists. split; [reflexivity|]. split; [|reflexivity]. unfold dd_size, bs_size, bs_store. cbn [bs_val]. unfold vresize.
  rewrite app_length, firstn_length, repeat_length. rewrite size_to_int_small; unfold INT_MAX; lia.
Qed.
Lemma resize_negative : forall (X A : Type) (d : A) (b : bset X A) N, INT_MIN <= N < 0 ->
  match bs_limit b with Some l => l <= INT_MAX -> dd_resize d N b = RExit | None => dd_resize d N b = RThrow b LengthError end.
Proof.
  intros X A d b N HN. unfold dd_resize, int_to_size, bs_resize, mbind, mget. unfold INT_MIN, INT_MAX in *.
  assert (E : N mod 2 ^ 64 = N + 2 ^ 64) by (symmetry; apply Z.mod_unique with (q := -1); lia). rewrite E.
  destruct (bs_limit b) as [l|].
  - intros Hl. replace (l <? N + 2 ^ 64) with true by lia. reflexivity.
  - replace (size_too_big <=? N + 2 ^ 64) with true by (symmetry; apply Z.leb_le; unfold size_too_big; lia). reflexivity.
Qed.

(** ** Examples *)
From Verif Require Import Model.PSimple.
From Coq Require Import String.
Definition cprog : list (cop (simple Z Z) Z) :=
  [CDelete 1; CNew 0 (Ok square); CNew 1 (Throw RuntimeError); CCall 0 (sp_call 3%Z); CNew 0 (Ok square); CDelete 0; CDelete 0;
   CNewThen 1 square (do* a := sp_call 5%Z in mret tt); CCall 1 getter; CDelete 1]%nat.
Definition creplies : list (reply Z) := [Done; Done; Raised RuntimeError; Result 9; Done; Done; Done; Done; Result 25; Done].
Lemma cprog_values : csteps (mkH (repeat None 2) 0%nat) cprog creplies (mkH [None; None] 1%nat).
Proof.
  unfold cprog, creplies. repeat (eapply SThen; [first [apply SDelete; cbn; lia|apply SNew; cbn; lia|apply SNewThrow; cbn; lia
    |eapply SNewThen; [cbn; lia|reflexivity]|eapply SCall; reflexivity]|]). apply SEnd.
Qed.
Lemma cprog_memory : exists s, crun cprog (cstart 2%nat) = Ok (creplies, s) /\ live (c_heap s) = 1%nat.
Proof. eexists. split; [vm_compute; reflexivity|reflexivity]. Qed.
Lemma alias_double : exists s, (c_new 0%nat (Ok square) ;;; c_alias 1%nat 0%nat) (cstart 2%nat) = RRet s tt /\ (c_delete 0%nat ;;; c_delete 1%nat) s = RUB UBDoubleFree.
Proof. eexists. split; [vm_compute; reflexivity|reflexivity]. Qed.
Definition limited : bset Z Z := mkBset "x" (Some 30%Z) (fun _ x => Ok x) (fun _ x => Ok x) (fun _ x => Ok x) [1; 2]%Z [] [].
Definition unlimited : bset Z Z := mkBset "x" None (fun _ x => Ok x) (fun _ x => Ok x) (fun _ x => Ok x) [1; 2]%Z [] [].
