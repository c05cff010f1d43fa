(** Normal forms of one-variable polynomial expressions, and their derivatives. *)
From Coq Require Import ZArith List Bool Reals Lra Lia.
From Coquelicot Require Import Coquelicot.
From Coq Require Import List.
From Verif Require Import Model.Outcome Model.Num Model.NumInst Model.CExpr Spec.Poly.
Import ListNotations.
Local Open Scope R_scope.

(** Coefficients, lowest first. *)
Fixpoint peval (p : list Z) (x : R) : R := match p with [] => 0 | c :: q => IZR c + x * peval q x end.
Fixpoint padd (p q : list Z) : list Z :=
  match p, q with
  | [], _ => q
  | _, [] => p
  | a :: p', b :: q' => (a + b)%Z :: padd p' q'
  end.
Definition pscale (a : Z) (p : list Z) : list Z := map (Z.mul a) p.
Fixpoint pmul (p q : list Z) : list Z := match p with [] => [] | a :: p' => padd (pscale a q) (0%Z :: pmul p' q) end.
Fixpoint ppow (p : list Z) (n : nat) : list Z := match n with 0%nat => [1%Z] | S k => pmul p (ppow p k) end.
Fixpoint pderiv (p : list Z) : list Z := match p with [] => [] | _ :: q => padd q (0%Z :: pderiv q) end.
(** Without high zero coefficients. *)
Fixpoint ptrim (p : list Z) : list Z :=
  match p with [] => [] | a :: q => match ptrim q with [] => if Z.eqb a 0 then [] else [a] | r => a :: r end end.

Lemma padd_ok : forall p q x, peval (padd p q) x = peval p x + peval q x.
Proof. induction p as [|a p IH]; intros [|b q] x; cbn [padd peval]; try ring. rewrite IH, plus_IZR. ring. Qed.
Lemma pscale_ok : forall a p x, peval (pscale a p) x = IZR a * peval p x.
Proof. induction p as [|b p IH]; intros; cbn [pscale map peval]; [ring|]. fold (pscale a p). rewrite IH, mult_IZR. ring. Qed.
Lemma pmul_ok : forall p q x, peval (pmul p q) x = peval p x * peval q x.
Proof. induction p as [|a p IH]; intros; cbn [pmul peval]; [ring|]. rewrite padd_ok, pscale_ok. cbn [peval]. rewrite IH. ring. Qed.
Lemma ppow_ok : forall p n x, peval (ppow p n) x = peval p x ^ n.
Proof. induction n as [|n IH]; intros; cbn [ppow pow]; [cbn; ring|]. rewrite pmul_ok, IH. ring. Qed.
Lemma ptrim_ok : forall p x, peval (ptrim p) x = peval p x.
Proof.
  induction p as [|a p IH]; intros; cbn [ptrim peval]; [reflexivity|]. rewrite <- (IH x).
  destruct (ptrim p) as [|b r]; cbn [peval].
  - destruct (Z.eqb_spec a 0); cbn [peval]; [subst; ring|ring].
  - reflexivity.
Qed.
Lemma peval_trim_eq : forall p q x, ptrim p = ptrim q -> peval p x = peval q x.
Proof. intros p q x E. rewrite <- (ptrim_ok p), <- (ptrim_ok q), E. reflexivity. Qed.
Lemma pderiv_ok : forall p x, is_derive (peval p) x (peval (pderiv p) x).
Proof.
  induction p as [|a p IH]; intros; cbn [pderiv].
  - apply (is_derive_ext (fun _ : R => 0)); [reflexivity|]. cbn. auto_derive; [exact I|ring].
  - rewrite padd_ok. cbn [peval].
    apply (is_derive_ext (fun t : R => IZR a + t * peval p t)); [reflexivity|].
    evar_last; [apply (is_derive_plus (fun _ : R => IZR a) (fun t : R => t * peval p t)); [apply is_derive_const|
      apply (is_derive_mult (fun t : R => t) (peval p)); [apply is_derive_id|apply IH|intros; apply Rmult_comm]]|].
    unfold plus, mult, zero, one; cbn. ring.
Qed.

(** The normal form of a polynomial expression in variable 0. *)
Fixpoint norm (e : cexpr) : option (list Z) :=
  match e with
  | CNum m x => if Z.leb 0 x then Some [(m * 10 ^ x)%Z] else None
  | CVar k => if Z.eqb k 0 then Some [0%Z; 1%Z] else None
  | CNeg a => option_map (pscale (-1)) (norm a)
  | CAdd a b => match norm a, norm b with Some p, Some q => Some (padd p q) | _, _ => None end
  | CSub a b => match norm a, norm b with Some p, Some q => Some (padd p (pscale (-1) q)) | _, _ => None end
  | CMul a b => match norm a, norm b with Some p, Some q => Some (pmul p q) | _, _ => None end
  | CHat a n => match norm a with Some p => Some (ppow p n) | None => None end
  | _ => None
  end.

Lemma hat_R : forall (x : R) n, hat ROps x n = x ^ n.
Proof. induction n as [|n IH]; cbn [hat pow]; [reflexivity|]. rewrite IH. reflexivity. Qed.

Ltac rr := match goal with |- @eq _ ?a ?b => change (@eq R a b) end; ring.
Lemma norm_ok : forall pw e p (x : R) v, norm e = Some p -> ceval ROps pw (x :: v) e = Ok (peval p x).
Proof.
  intros pw. induction e as [m ex|k|a IHa|a IHa b IHb|a IHa b IHb|a IHa b IHb|a IHa b IHb|a IHa b IHb|a IHa n]; intros p x v; cbn [norm ceval].
  - destruct (Z.leb_spec 0 ex) as [L|L]; [|discriminate]. intros E; injection E as <-. f_equal.
    unfold literal. destruct (Z.leb_spec 0 ex) as [_|L2]; [|lia]. cbn. rr.
  - destruct (Z.eqb_spec k 0) as [->|]; [|discriminate]. intros E; injection E as <-. cbn. f_equal. rr.
  - destruct (norm a) as [pa|]; [|discriminate]. intros E; injection E as <-. rewrite (IHa pa x v eq_refl). cbn [obind]. f_equal.
    rewrite pscale_ok. cbn. change (IZR (-1)) with (- (1)). rr.
  - destruct (norm a) as [pa|]; [|discriminate]. destruct (norm b) as [pb|]; [|discriminate]. intros E; injection E as <-.
    rewrite (IHa pa x v eq_refl), (IHb pb x v eq_refl). cbn [obind]. f_equal. rewrite padd_ok. reflexivity.
  - destruct (norm a) as [pa|]; [|discriminate]. destruct (norm b) as [pb|]; [|discriminate]. intros E; injection E as <-.
    rewrite (IHa pa x v eq_refl), (IHb pb x v eq_refl). cbn [obind]. f_equal. rewrite padd_ok, pscale_ok. cbn. change (IZR (-1)) with (- (1)). rr.
  - destruct (norm a) as [pa|]; [|discriminate]. destruct (norm b) as [pb|]; [|discriminate]. intros E; injection E as <-.
    rewrite (IHa pa x v eq_refl), (IHb pb x v eq_refl). cbn [obind]. f_equal. rewrite pmul_ok. reflexivity.
  - discriminate.
  - discriminate.
  - destruct (norm a) as [pa|]; [|discriminate]. intros E; injection E as <-. rewrite (IHa pa x v eq_refl). cbn [obind]. f_equal.
    rewrite ppow_ok. apply hat_R.
Qed.

(** The coefficients of x^n and of T_n. *)
Fixpoint xcoefs (n : nat) : list Z := match n with 0%nat => [1%Z] | S k => 0%Z :: xcoefs k end.
Lemma xcoefs_ok : forall n x, peval (xcoefs n) x = x ^ n.
Proof. induction n as [|n IH]; intros; cbn [xcoefs peval pow]; [ring|]. rewrite IH. ring. Qed.

Fixpoint tcoefs2 (n : nat) : list Z * list Z :=
  match n with
  | 0%nat => ([1%Z], [0%Z; 1%Z])
  | S k => let (a, b) := tcoefs2 k in (b, padd (0%Z :: pscale 2 b) (pscale (-1) a))
  end.
Definition tcoefs (n : nat) : list Z := fst (tcoefs2 n).
Lemma tcoefs2_ok : forall n x, peval (fst (tcoefs2 n)) x = chebyshev n x /\ peval (snd (tcoefs2 n)) x = chebyshev (S n) x.
Proof.
  induction n as [|n IH]; intros x; [cbn; split; ring|]. specialize (IH x).
  change (tcoefs2 (S n)) with (let (a, b) := tcoefs2 n in (b, padd (0%Z :: pscale 2 b) (pscale (-1) a))).
  destruct (tcoefs2 n) as [a b]; cbn [fst snd] in *. destruct IH as [Ha Hb]. split; [exact Hb|].
  rewrite padd_ok. cbn [peval]. rewrite !pscale_ok, Ha, Hb. change (chebyshev (S (S n)) x) with (2 * x * chebyshev (S n) x - chebyshev n x).
  change (IZR (-1)) with (- (1)). ring.
Qed.
Lemma tcoefs_ok : forall n x, peval (tcoefs n) x = chebyshev n x.
Proof. intros. apply tcoefs2_ok. Qed.

(** T_n(cos a) = cos(n a). *)
Lemma chebyshev_cos2 : forall n a, chebyshev n (cos a) = cos (INR n * a) /\ chebyshev (S n) (cos a) = cos (INR (S n) * a).
Proof.
  induction n as [|n IH]; intros a.
  - split; cbn; [rewrite Rmult_0_l; symmetry; apply cos_0|rewrite Rmult_1_l; reflexivity].
  - destruct (IH a) as [H0 H1]. split; [exact H1|].
    change (chebyshev (S (S n)) (cos a)) with (2 * cos a * chebyshev (S n) (cos a) - chebyshev n (cos a)). rewrite H0, H1.
    replace (INR (S (S n)) * a) with (INR (S n) * a + a) by (rewrite (S_INR (S n)); ring).
    replace (INR n * a) with (INR (S n) * a - a) by (rewrite (S_INR n); ring).
    rewrite cos_plus, cos_minus. ring.
Qed.
Lemma chebyshev_cos : forall n a, chebyshev n (cos a) = cos (INR n * a).
Proof. intros. apply chebyshev_cos2. Qed.

(** A triple of expressions is a polynomial with its first two derivatives. *)
Definition triple_ok (p : list Z) (f g h : option cexpr) : bool :=
  let same e q := match e with
                  | Some e => match norm e with Some r => if list_eq_dec Z.eq_dec (ptrim r) (ptrim q) then true else false | None => false end
                  | None => false
                  end in
  (same f p && same g (pderiv p) && same h (pderiv (pderiv p)))%bool.
Definition evaluates (e : option cexpr) (f : R -> R) : Prop :=
  exists c, e = Some c /\ forall pw x, ceval ROps pw [x] c = Ok (f x).
Lemma triple_spec : forall p f g h, triple_ok p f g h = true ->
  evaluates f (peval p) /\ evaluates g (peval (pderiv p)) /\ evaluates h (peval (pderiv (pderiv p))).
Proof.
  intros p f g h E. unfold triple_ok in E. apply andb_prop in E. destruct E as [E E3]. apply andb_prop in E. destruct E as [E1 E2].
  assert (K : forall e q, match e with
                  | Some e => match norm e with Some r => if list_eq_dec Z.eq_dec (ptrim r) (ptrim q) then true else false | None => false end
                  | None => false
                  end = true -> evaluates e (peval q)).
  { intros [e|] q H; [|discriminate]. destruct (norm e) as [r|] eqn:N; [|discriminate].
    destruct (list_eq_dec Z.eq_dec (ptrim r) (ptrim q)) as [Er|]; [|discriminate].
    exists e; split; [reflexivity|]. intros pw x. etransitivity; [exact (norm_ok pw e r x [] N)|]. f_equal. apply peval_trim_eq, Er. }
  repeat split; apply K; assumption.
Qed.
Lemma second_derivative : forall p x, is_derive_n (peval p) 2 x (peval (pderiv (pderiv p)) x).
Proof.
  intros p x. change (is_derive (Derive_n (peval p) 1) x (peval (pderiv (pderiv p)) x)).
  apply (is_derive_ext (peval (pderiv p))); [|apply pderiv_ok].
  intros t. symmetry. apply is_derive_unique, pderiv_ok.
Qed.
