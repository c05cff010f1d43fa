(** Doubles as texts: the statements for single numbers and for tables of coefficients. *)
From Coq Require Import ZArith List Bool Ascii Reals Lia Lra.
From Flocq Require Import Core.
From Flocq Require Import IEEE754.BinarySingleNaN.
From Verif Require Import Model.Outcome Model.Num Model.NumInst Model.PNDArray Model.PSimple Model.BasisSet Model.Series Model.Stream Model.SeriesIO Model.Decimal.
From Verif Require Import Spec.Tensor Spec.NDHistory Spec.Vtk Spec.SeriesIO Spec.Python Spec.Rounding Spec.Decimal.
From Verif Require Import Proofs.PNDArrayP Proofs.StreamP Proofs.SeriesIOP Proofs.DecimalP Proofs.DecimalTextP Proofs.DecimalRoundP.
Import ListNotations.
Local Open Scope Z_scope.

Local Lemma Forall2_imp (A B : Type) (P Q : A -> B -> Prop) l l' : (forall a b, P a b -> Q a b) -> Forall2 P l l' -> Forall2 Q l l'.
Proof. intros H. induction 1; constructor; auto. Qed.

Local Lemma Forall2_len (A B : Type) (P : A -> B -> Prop) l l' : Forall2 P l l' -> length l = length l'.
Proof. induction 1; cbn; auto. Qed.

(** ** Single numbers *)
Lemma decimal_text_word w neg x : decimal_text w neg x -> word w.
Proof.
  intros (s & i & t & f & e & m & k & -> & Hs & Ht & He & Hm & Hne & _).
  assert (ND : forall c, isd c -> ~ blank c).
  { intros c (d & Hd & ->). apply numeral_word. exact Hd. }
  assert (NF : forall l, Forall isd l -> Forall (fun c => ~ blank c) l) by (intros l; apply Forall_impl; exact ND).
  assert (NS : forall s neg, sign_text s neg -> Forall (fun c => ~ blank c) s).
  { intros u b [[-> _]|[[-> | ->] _]]; repeat constructor; intros B; unfold blank, newline in B; simpl in B; intuition discriminate. }
  apply digits_iff in Hm. destruct Hm as [F _]. apply Forall_app in F. destruct F as [Fi Ff]. split.
  - intros E. apply app_eq_nil in E. destruct E as [_ E]. apply app_eq_nil in E. destruct E as [-> E]. apply app_eq_nil in E. destruct E as [-> _]. apply Hne. destruct Ht as [[_ ->]|D]; [reflexivity|discriminate D].
  - apply Forall_app. split; [exact (NS s neg Hs)|]. apply Forall_app. split; [apply NF; exact Fi|]. apply Forall_app. split.
    + destruct Ht as [[-> _]| ->]; [constructor|]. constructor; [|apply NF; exact Ff]. intros B. unfold blank, newline in B. simpl in B. intuition discriminate.
    + destruct He as [[-> _]|(c & s' & u & b & n & -> & Hc & Hb & Hu & _)]; [constructor|]. constructor; [destruct Hc as [-> | ->]; intros B; unfold blank, newline in B; simpl in B; intuition discriminate|].
      apply Forall_app. split; [exact (NS s' b Hb)|]. apply NF. exact (proj1 (decimal_ne u n Hu)).
Qed.

Lemma to_double_nonneg x : (0 <= x)%R -> (0 <= to_double x)%R.
Proof. apply to_double_ge0. Qed.

Lemma reads w neg x r : decimal_text w neg x -> ends_word r ->
  if Rlt_bool (to_double x) (bpow radix2 1024)
  then exists a, double_scanner (w ++ r) = (a, true, r) /\ finite a /\ Bsign a = neg /\ value a = (if neg then - to_double x else to_double x)%R
  else double_scanner (w ++ r) = (double_max neg, false, r).
Proof.
  intros D Hr. destruct (scanner_ok w neg x r D Hr) as (m & k & Hm & -> & E). pose proof (nearest_decimal_ok neg m k Hm) as N. cbv zeta in N. rewrite E.
  destruct (Rlt_bool (to_double (IZR m * bpow ten k)) (bpow radix2 1024)).
  - destruct N as (F & V & S). exists (nearest_decimal neg m k). split; [|auto]. destruct (nearest_decimal neg m k); try discriminate F; reflexivity.
  - rewrite N. reflexivity.
Qed.
Lemma decimal_text_nonneg w neg x : decimal_text w neg x -> (0 <= x)%R.
Proof.
  intros (s & i & t & f & e & m & k & _ & _ & _ & _ & Hm & _ & ->). apply digits_nonneg in Hm. apply Rmult_le_pos; [apply IZR_le; exact Hm|]. change 10%R with (IZR ten). rewrite <- bpow_powerRZ. apply bpow_ge_0.
Qed.

Lemma same_double (a b : f64) : finite a -> finite b -> Bsign a = Bsign b -> Rabs (value a) = Rabs (value b) -> a = b.
Proof.
  intros Fa Fb S V. apply B2R_Bsign_inj; [exact Fa|exact Fb| |exact S]. fold (value a) (value b).
  assert (G : forall c : f64, finite c -> value c = (if Bsign c then - Rabs (value c) else Rabs (value c))%R).
  { intros c Fc. destruct c as [s|s| |s m e H]; [|discriminate Fc|discriminate Fc|].
    - unfold value, B2R. rewrite Rabs_R0. cbn [Bsign]. destruct s; lra.
    - rewrite finite_abs. rewrite value_finite. cbn [Bsign]. reflexivity. }
  rewrite (G a Fa), (G b Fb), S, V. reflexivity.
Qed.

Lemma double_reader : number_reader denotes double_scanner.
Proof.
  intros w a (neg & x & D & F & S & V). split; [exact (decimal_text_word w neg x D)|]. intros r Hr. pose proof (reads w neg x r D Hr) as R.
  assert (L : (to_double x < bpow radix2 1024)%R) by (rewrite <- V; apply abs_B2R_lt_emax). rewrite Rlt_bool_true in R by exact L.
  destruct R as (b & E & Fb & Sb & Vb). rewrite E. replace a with b; [reflexivity|]. apply same_double; [exact Fb|exact F|congruence|]. rewrite Vb, V.
  pose proof (to_double_ge0 x (decimal_text_nonneg _ _ _ D)). destruct neg; [rewrite Rabs_Ropp|]; apply Rabs_pos_eq; exact H.
Qed.

Lemma double_max_ok neg : finite (double_max neg) /\ Bsign (double_max neg) = neg /\ Rabs (value (double_max neg)) = max_double.
Proof.
  assert (E : double_max neg = @B754_finite 53 1024 neg (2 ^ 53 - 1)%positive 971 eq_refl) by (apply B2SF_inj; destruct neg; vm_compute; reflexivity). rewrite E. split; [reflexivity|]. split; [reflexivity|]. rewrite finite_abs. reflexivity.
Qed.
Lemma double_too_large w neg : too_large w neg ->
  exists a, finite a /\ Bsign a = neg /\ (forall b, finite b -> (Rabs (value b) <= Rabs (value a))%R) /\ forall r, ends_word r -> double_scanner (w ++ r) = (a, false, r).
Proof.
  intros (x & D & L). exists (double_max neg). destruct (double_max_ok neg) as (F & S & V). split; [exact F|]. split; [exact S|]. split.
  - intros b _. rewrite V. unfold value. eapply Rle_trans; [apply abs_B2R_le_emax_minus_prec; reflexivity|]. unfold max_double. apply Req_le.
    change (1024 - 53) with 971. replace (bpow radix2 1024) with (IZR (2 ^ 53) * bpow radix2 971)%R by (change (IZR (2 ^ 53)) with (bpow radix2 53); rewrite <- bpow_plus; reflexivity). rewrite minus_IZR. ring.
  - intros r Hr. pose proof (reads w neg x r D Hr) as R. rewrite Rlt_bool_false in R by exact L. exact R.
Qed.

Lemma abs_format (x : f64) : generic_format radix2 (FLT_exp (-1074) 53) (Rabs (value x)).
Proof. apply generic_format_abs. exact (generic_format_B2R 53 1024 x). Qed.

(** Printed and read again. *)
Lemma printed_reread p x : 1 <= p -> finite x -> (to_double (to_digits p (Rabs (value x))) < bpow radix2 1024)%R ->
  exists a, denotes (print_double p x) a /\ Bsign a = Bsign x /\ value a = (if Bsign x then - to_double (to_digits p (Rabs (value x))) else to_double (to_digits p (Rabs (value x))))%R.
Proof.
  intros Hp F L. pose proof (prints_digits p x Hp F) as D. pose proof (reads _ _ _ [] D (or_introl eq_refl)) as R. rewrite Rlt_bool_true in R by exact L. destruct R as (a & _ & Fa & Sa & Va).
  exists a. split; [|auto]. exists (Bsign x), (to_digits p (Rabs (value x))). split; [exact D|]. split; [exact Fa|]. split; [exact Sa|]. rewrite Va.
  pose proof (to_double_ge0 _ (decimal_text_nonneg _ _ _ D)) as P. destruct (Bsign x); [rewrite Rabs_Ropp|]; apply Rabs_pos_eq; exact P.
Qed.
Lemma value_sign x : finite x -> value x = (if Bsign x then - Rabs (value x) else Rabs (value x))%R.
Proof.
  intros Fc. destruct x as [s|s| |s m e H]; [|discriminate Fc|discriminate Fc|].
  - unfold value, B2R. rewrite Rabs_R0. cbn [Bsign]. destruct s; lra.
  - rewrite finite_abs. rewrite value_finite. cbn [Bsign]. reflexivity.
Qed.
Lemma abs_value_max (x : f64) : (0 <= Rabs (value x) <= max_double)%R.
Proof.
  split; [apply Rabs_pos|]. unfold value. eapply Rle_trans; [apply abs_B2R_le_emax_minus_prec; reflexivity|]. unfold max_double. apply Req_le.
  change (1024 - 53) with 971. replace (bpow radix2 1024) with (IZR (2 ^ 53) * bpow radix2 971)%R by (change (IZR (2 ^ 53)) with (bpow radix2 53); rewrite <- bpow_plus; reflexivity). rewrite minus_IZR. ring.
Qed.

Lemma sign_abs_diff (b : bool) u v : (Rabs ((if b then - u else u) - (if b then - v else v)) = Rabs (u - v))%R.
Proof. destruct b; [rewrite <- Rabs_Ropp; f_equal; ring|reflexivity]. Qed.

(** The text of a double depends on its sign and its rounded value only. *)
Lemma print_same p a b : 1 <= p -> finite a -> finite b -> Bsign a = Bsign b -> to_digits p (Rabs (value a)) = to_digits p (Rabs (value b)) -> print_double p a = print_double p b.
Proof.
  intros Hp Fa Fb S V.
  assert (Z : forall s m e H, to_digits p (Rabs (value (B754_finite s m e H : f64))) <> 0%R).
  { intros s m e H. destruct (print_finite p s m e H Hp) as (N & x & _ & B & E & _). rewrite finite_abs, <- E. assert (0 < 10 ^ (p - 1)) by (apply Z.pow_pos_nonneg; lia). apply Rgt_not_eq, Rmult_lt_0_compat; [apply IZR_lt; lia|apply bpow_gt_0]. }
  assert (Z0 : forall s, to_digits p (Rabs (value (B754_zero s : f64))) = 0%R) by (intros s; unfold value, B2R; rewrite Rabs_R0; apply round_0; apply valid_rnd_N).
  destruct a as [s|s| |s m e H]; try discriminate Fa; destruct b as [s'|s'| |s' m' e' H']; try discriminate Fb; cbn [Bsign] in S; subst s'.
  - reflexivity.
  - exfalso. rewrite Z0 in V. exact (Z _ _ _ _ (eq_sym V)).
  - exfalso. rewrite Z0 in V. exact (Z _ _ _ _ V).
  - rewrite !finite_abs in V. destruct (print_finite p s m e H Hp) as (N & x & P1 & B1 & E1 & _). destruct (print_finite p s m' e' H' Hp) as (N' & x' & P2 & B2 & E2 & _).
    rewrite P1, P2. rewrite <- E1, <- E2 in V. destruct (digits_unique p N _ N' _ Hp B1 B2 V) as [-> Ex]. replace x' with x by lia. reflexivity.
Qed.

(** What six digits keep. *)
Definition kept (a b : f64) : Prop :=
  finite b /\ Bsign b = Bsign a /\ (Rabs (value b - value a) <= 5000001 / 1000000000000 * Rabs (value a) + bpow radix2 (-1075))%R /\
  (value a = 0%R \/ (bpow radix2 (-1050) <= Rabs (value a))%R -> print_double 6 b = print_double 6 a).
Lemma six_digits x : finite x -> exists a, denotes (print_double 6 x) a /\ kept x a.
Proof.
  intros F. destruct (printed_reread 6 x ltac:(lia) F (six_no_overflow _ (abs_value_max x))) as (a & D & S & V). exists a. split; [exact D|]. assert (Fa : finite a) by (destruct D as (n & y & _ & Fa & _); exact Fa).
  split; [exact Fa|]. split; [exact S|]. split.
  - rewrite (value_sign x F) at 1. rewrite V, sign_abs_diff. apply reread_error. apply Rabs_pos.
  - intros C. apply print_same; [lia|exact Fa|exact F|exact S|]. assert (VA : Rabs (value a) = to_double (to_digits 6 (Rabs (value x)))).
    { rewrite V. pose proof (to_double_ge0 _ (to_digits_ge0 6 ltac:(lia) _ (Rabs_pos (value x)))) as P. destruct (Bsign x); [rewrite Rabs_Ropp|]; apply Rabs_pos_eq; exact P. }
    rewrite VA. destruct C as [C|C]; [|apply reread_stable; exact C]. rewrite C, Rabs_R0. unfold to_digits at 2. rewrite round_0 by (apply valid_rnd_N). unfold to_double. rewrite round_0 by (apply valid_rnd_N). reflexivity.
Qed.
Lemma abs_reread p x a : 1 <= p -> value a = (if Bsign x then - to_double (to_digits p (Rabs (value x))) else to_double (to_digits p (Rabs (value x))))%R ->
  Rabs (value a) = to_double (to_digits p (Rabs (value x))).
Proof.
  intros Hp V. rewrite V. pose proof (to_double_ge0 _ (to_digits_ge0 p Hp _ (Rabs_pos (value x)))) as P. destruct (Bsign x); [rewrite Rabs_Ropp|]; apply Rabs_pos_eq; exact P.
Qed.

Lemma seventeen_digits x : finite x -> denotes (print_double 17 x) x.
Proof.
  intros F. pose proof (seventeen_exact _ (Rabs_pos (value x)) (abs_format x)) as E.
  exists (Bsign x), (to_digits 17 (Rabs (value x))). split; [apply prints_digits; [lia|exact F]|]. split; [exact F|]. split; [reflexivity|]. symmetry. exact E.
Qed.

(** Doubles that are the nearest to numbers of six digits survive. *)
Lemma six_short x N k : finite x -> 0 <= N < 10 ^ 6 -> Rabs (value x) = to_double (IZR N * powerRZ 10 k) -> N = 0 \/ (bpow radix2 (-1051) <= IZR N * powerRZ 10 k)%R ->
  denotes (print_double 6 x) x /\ decimal_text (print_double 6 x) (Bsign x) (IZR N * powerRZ 10 k).
Proof.
  change 10%R with (IZR ten). rewrite <- bpow_powerRZ. intros F HN V B. pose proof (short_restored N k HN B) as E. pose proof (prints_digits 6 x ltac:(lia) F) as D. rewrite V, E in D. split; [|exact D].
  exists (Bsign x), (IZR N * bpow ten k)%R. auto.
Qed.

(** Numbers that are none. *)
Lemma no_number p x r : ~ finite x -> exists r', double_scanner (print_double p x ++ r) = (B754_zero false, false, r').
Proof. intros H. destruct x as [s|[]| |s m e B]; try (exfalso; apply H; reflexivity); eexists; reflexivity. Qed.

(** ** Tables *)
Lemma table_denotes (A : Type) (dims : list Z) (pr : A -> text) (nt : text -> A -> Prop) : forall vals i t vals', table (fun w a => w = pr a) dims i vals t -> Forall2 (fun a b => nt (pr a) b) vals vals' -> table nt dims i vals' t.
Proof.
  induction vals as [|a vals IH]; intros i t vals' T F; inversion F as [|? b ? vs Hab F']; subst; inversion T as [|? ? ? term its w u V Rm Fi -> Tu]; subst; [constructor|]. econstructor; eauto.
Qed.

Lemma print_coeff_same (S : SerOps) (pr : sa S -> text) (c c' : nd (sa S)) : nd_unroll c = nd_unroll c' -> nd_order c = nd_order c' -> nd_volume c = nd_volume c' ->
  Forall2 (fun a b => pr a = pr b) (nd_val c) (nd_val c') ->
  print_table pr c (fun i _ => nd_get c i) = print_table pr c' (fun i _ => nd_get c' i).
Proof.
  intros E1 E2 E3 F. unfold print_table, tensor_indices. rewrite E1, E2, E3.
  match goal with |- obind (ofold ?f _ _) _ = obind (ofold ?g _ _) _ => assert (K : forall l st, ofold f l st = ofold g l st) end; [|rewrite K; reflexivity].
  induction l as [|i l IH]; intros st; [reflexivity|]. cbn [ofold].
  destruct (tensor_indices_loop (nd_unroll c') i (fst st)) as [tm| | | |]; try reflexivity. cbn [obind].
  assert (G : (exists a b, nd_get c i = Ok a /\ nd_get c' i = Ok b /\ pr a = pr b) \/ (exists r, nd_get c i = UB r /\ nd_get c' i = UB r)).
  { unfold nd_get, vget. destruct ((0 <=? i)); cbn [andb]; [|right; eauto]. clear -F. generalize (Z.to_nat i). induction F as [|a b l l' E F IH]; intros [|k]; cbn [nth_error]; eauto. left; eauto. }
  destruct G as [(a & b & -> & -> & E)|(r & -> & ->)]; [|reflexivity]. cbn [obind]. replace (print_line pr tm a) with (print_line pr tm b) by (unfold print_line; rewrite E; reflexivity). apply IH.
Qed.

Lemma wf_same (A : Type) (c c' : nd A) : nd_wf c -> nd_wf c' -> nd_dim c' = nd_dim c -> nd_unroll c' = nd_unroll c /\ nd_order c' = nd_order c /\ nd_volume c' = nd_volume c.
Proof.
  intros W W' E. destruct c as [d u v o vol], c' as [d' u' v' o' vol']. cbn in *. subst d'.
  destruct W as [(D & E1 & E2 & E3 & E4)|(U & E1 & E2 & E3 & E4)]; destruct W' as [(D' & E1' & E2' & E3' & E4')|(U' & E1' & E2' & E3' & E4')]; cbn in *; subst; auto.
  - destruct U'. congruence.
  - destruct U. congruence.
Qed.

Lemma print_read_doubles p (rel : f64 -> f64 -> Prop) : (forall x, finite x -> exists a, denotes (print_double p x) a /\ rel x a) ->
  forall (s s' : series (num_series FOps)) rest, nd_wf (se_coeff s) -> nd_wf (se_coeff s') ->
  nd_dim (se_coeff s') = nd_dim (se_coeff s) -> Forall finite (nd_val (se_coeff s)) ->
  exists t r vals, se_print_coeff (S := num_series FOps) (print_double p) s = Ok t /\
    se_read_coeff (S := num_series FOps) double_scanner (s', is_open (Some (t ++ rest))) = RRet (with_values s' vals, is_open (Some r)) tt /\
    Forall2 rel (nd_val (se_coeff s)) vals /\ (r = newline :: rest \/ r = rest /\ nd_val (se_coeff s) = []) /\
    (Forall2 (fun a b => print_double p b = print_double p a) (nd_val (se_coeff s)) vals -> se_print_coeff (S := num_series FOps) (print_double p) (with_values s' vals) = Ok t).
Proof.
  intros HP s s' rest W W' Hd F.
  assert (X : exists vals, Forall2 (fun a b => denotes (print_double p a) b /\ rel a b) (nd_val (se_coeff s)) vals).
  { clear -F HP. induction F as [|a l Ha F (vs & IH)]; [exists []; constructor|]. destruct (HP a Ha) as (b & Hb). exists (b :: vs). constructor; assumption. }
  destruct X as (vals & X). destruct (print_coeff_ok (S := num_series FOps) (print_double p) s W) as (t & E & T).
  destruct (wf_same _ _ _ W W' Hd) as (E1 & E2 & E3).
  assert (X1 : Forall2 (fun a b => denotes (print_double p a) b) (nd_val (se_coeff s)) vals) by (eapply Forall2_imp; [|exact X]; intros a b [Q _]; exact Q).
  assert (X2 : Forall2 rel (nd_val (se_coeff s)) vals) by (eapply Forall2_imp; [|exact X]; intros a b [_ Q]; exact Q).
  pose proof (table_denotes f64 _ (print_double p) denotes _ _ _ _ T X1) as T'. rewrite <- Hd in T'.
  assert (L : Z.of_nat (length vals) = nd_volume (se_coeff s')) by (rewrite E3, <- (nd_wf_length _ _ W); f_equal; symmetry; eapply Forall2_len; exact X).
  pose proof (read_table_ok (S := num_series FOps) double_scanner denotes double_reader s' vals t rest W' L T') as R.
  exists t, (match vals with [] => rest | _ => newline :: rest end), vals. split; [exact E|]. split; [exact R|]. split; [exact X2|]. split.
  - inversion X2; subst; auto.
  - intros Q. rewrite <- E. unfold se_print_coeff. symmetry. apply print_coeff_same; cbn [with_values se_coeff nd_unroll nd_order nd_volume nd_val]; try congruence. eapply Forall2_imp; [|exact Q]. intros a b K. symmetry. exact K.
Qed.

Lemma series_six (s s' : series (num_series FOps)) rest : nd_reachable (sdflt (num_series FOps)) (se_coeff s) -> nd_reachable (sdflt (num_series FOps)) (se_coeff s') ->
  nd_dim (se_coeff s') = nd_dim (se_coeff s) -> Forall finite (nd_val (se_coeff s)) ->
  exists t r vals, se_print_coeff (S := num_series FOps) (print_double 6) s = Ok t /\
    se_read_coeff (S := num_series FOps) double_scanner (s', is_open (Some (t ++ rest))) = RRet (with_values s' vals, is_open (Some r)) tt /\
    Forall2 (fun a b => finite b /\ Bsign b = Bsign a /\ (Rabs (value b - value a) <= 5000001 / 1000000000000 * Rabs (value a) + bpow radix2 (-1075))%R) (nd_val (se_coeff s)) vals /\
    (r = newline :: rest \/ r = rest /\ nd_val (se_coeff s) = []) /\
    (Forall (fun a => value a = 0%R \/ (bpow radix2 (-1050) <= Rabs (value a))%R) (nd_val (se_coeff s)) -> se_print_coeff (S := num_series FOps) (print_double 6) (with_values s' vals) = Ok t).
Proof.
  intros H H' Hd F. destruct (print_read_doubles 6 kept six_digits s s' rest (nd_reachable_wf _ _ _ H) (nd_reachable_wf _ _ _ H') Hd F) as (t & r & vals & E & R & K & Er & A). exists t, r, vals. split; [exact E|]. split; [exact R|]. split.
  - eapply Forall2_imp; [|exact K]. intros a b (K1 & K2 & K3 & _). auto.
  - split; [exact Er|]. intros L. apply A. clear -K L. induction K as [|a b l l' (_ & _ & _ & K4) K IH]; [constructor|]. inversion L; subst. constructor; auto.
Qed.
Lemma series_seventeen (s s' : series (num_series FOps)) rest : nd_reachable (sdflt (num_series FOps)) (se_coeff s) -> nd_reachable (sdflt (num_series FOps)) (se_coeff s') ->
  nd_dim (se_coeff s') = nd_dim (se_coeff s) -> Forall finite (nd_val (se_coeff s)) ->
  exists t r, se_print_coeff (S := num_series FOps) (print_double 17) s = Ok t /\
    se_read_coeff (S := num_series FOps) double_scanner (s', is_open (Some (t ++ rest))) = RRet (with_values s' (nd_val (se_coeff s)), is_open (Some r)) tt /\
    (r = newline :: rest \/ r = rest /\ nd_val (se_coeff s) = []).
Proof.
  intros H H' Hd F. destruct (print_read_doubles 17 eq (fun x Fx => ex_intro _ x (conj (seventeen_digits x Fx) eq_refl)) s s' rest (nd_reachable_wf _ _ _ H) (nd_reachable_wf _ _ _ H') Hd F) as (t & r & vals & E & R & K & Er & _). exists t, r. split; [exact E|].
  assert (Ev : nd_val (se_coeff s) = vals) by (clear -K; induction K; congruence). rewrite Ev in *. split; [exact R|exact Er].
Qed.

(** One number. *)
Lemma reread_six x : finite x -> exists a, (forall r, ends_word r -> double_scanner (print_double 6 x ++ r) = (a, true, r)) /\ finite a /\ Bsign a = Bsign x /\
  (Rabs (value a - value x) <= 5000001 / 1000000000000 * Rabs (value x) + bpow radix2 (-1075))%R /\
  (value x = 0%R \/ (bpow radix2 (-1050) <= Rabs (value x))%R -> print_double 6 a = print_double 6 x).
Proof. intros F. destruct (six_digits x F) as (a & D & K). exists a. split; [|exact K]. intros r Hr. exact (proj2 (double_reader _ _ D) r Hr). Qed.
Lemma reread_seventeen x : finite x -> forall r, ends_word r -> double_scanner (print_double 17 x ++ r) = (x, true, r).
Proof. intros F r Hr. exact (proj2 (double_reader _ _ (seventeen_digits x F)) r Hr). Qed.
Lemma reread_short w neg N k : 0 <= N < 10 ^ 6 -> N = 0 \/ (bpow radix2 (-1051) <= IZR N * powerRZ 10 k)%R -> decimal_text w neg (IZR N * powerRZ 10 k) -> ~ too_large w neg ->
  exists x, (forall r, ends_word r -> double_scanner (w ++ r) = (x, true, r)) /\ decimal_text (print_double 6 x) neg (IZR N * powerRZ 10 k) /\
    (forall r, ends_word r -> double_scanner (print_double 6 x ++ r) = (x, true, r)).
Proof.
  intros HN B D T. pose proof (reads w neg _ [] D (or_introl eq_refl)) as R. destruct (Rlt_bool_spec (to_double (IZR N * powerRZ 10 k)) (bpow radix2 1024)) as [L|L]; [|exfalso; apply T; eexists; split; [exact D|exact L]].
  destruct R as (x & _ & F & S & V). pose proof (to_double_ge0 _ (decimal_text_nonneg _ _ _ D)) as P. assert (A : Rabs (value x) = to_double (IZR N * powerRZ 10 k)) by (rewrite V; destruct neg; [rewrite Rabs_Ropp|]; apply Rabs_pos_eq; exact P).
  destruct (six_short x N k F HN A B) as [D1 D2]. rewrite S in D2. exists x. split; [|split; [exact D2|]].
  - intros r Hr. apply (proj2 (double_reader w x ltac:(exists neg, (IZR N * powerRZ 10 k)%R; auto)) r Hr).
  - intros r Hr. exact (proj2 (double_reader _ _ D1) r Hr).
Qed.

(** The texts are among those considered for Python. *)
Lemma rounds_to_digits p x m e : 1 <= p -> rounds_to p x m e -> to_digits p (Rabs x) = (IZR (Z.abs m) * bpow ten e)%R.
Proof.
  intros Hp (Hm & H1 & H2). pose proof (prec10 p Hp) as PP. assert (PW : forall j, powerRZ 10 j = bpow ten j) by (intros j; symmetry; exact (bpow_powerRZ ten j)). rewrite !PW in *.
  assert (ZP : forall j, 0 <= j -> IZR (10 ^ j) = bpow ten j) by (intros j Hj; exact (IZR_Zpower ten j Hj)).
  set (u := (IZR (Z.abs m) * bpow ten e)%R). pose proof (bpow_gt_0 ten e) as Pe. assert (P0 : 0 < 10 ^ (p - 1)) by (apply Z.pow_pos_nonneg; lia).
  assert (Pm : (0 < IZR (Z.abs m))%R) by (apply IZR_lt; lia). assert (Pu : (0 < u)%R) by (apply Rmult_lt_0_compat; assumption).
  assert (Fu : generic_format ten (FLX_exp p) u) by (apply generic_format_FLX; exists (Float ten (Z.abs m) e); [reflexivity|cbn [Fnum]; change (radix_val ten) with 10; lia]).
  assert (Bu : (bpow ten (p + e - 1) <= u < bpow ten (p + e))%R).
  { replace (p + e - 1) with (p - 1 + e) by lia. rewrite !bpow_plus, <- (ZP (p - 1)), <- (ZP p) by lia. unfold u. split; [apply Rmult_le_compat_r; [lra|apply IZR_le; lia]|apply Rmult_lt_compat_r; [lra|apply IZR_lt; lia]]. }
  assert (Mu : mag_val _ _ (mag ten u) = p + e) by (apply mag_unique; rewrite Rabs_pos_eq by lra; exact Bu).
  assert (Uu : ulp ten (FLX_exp p) u = bpow ten e) by (rewrite ulp_neq_0 by lra; unfold cexp, FLX_exp; rewrite Mu; f_equal; lia).
  assert (D : (Rabs (Rabs x - u) < bpow ten e / 2)%R).
  { eapply Rle_lt_trans; [|exact H1]. replace u with (Rabs (IZR m * bpow ten e)); [apply Rabs_triang_inv2|]. rewrite Rabs_mult, (Rabs_pos_eq (bpow ten e)) by lra. unfold u. rewrite <- abs_IZR. reflexivity. }
  apply Rabs_def2 in D. destruct D as [D1 D2]. unfold to_digits. apply Rle_antisym.
  - apply round_N_le_midp; [typeclasses eauto|exact Fu|]. rewrite succ_eq_pos, Uu by lra. lra.
  - apply round_N_ge_midp; [typeclasses eauto|exact Fu|]. rewrite pred_eq_pos by lra. unfold pred_pos. rewrite Mu, Uu. case Req_bool_spec; intros EQ; [|lra].
    unfold FLX_exp. replace (p + e - 1 - p) with (e - 1) by lia. rewrite EQ. replace (p + e - 1) with (p + (e - 1)) by lia. rewrite bpow_plus, <- ZP by lia. lra.
Qed.
Lemma prints_shown p : 1 <= p -> shows_digits p (@B2R 53 1024) (print_double p).
Proof.
  intros Hp x y m e Hx Hy. assert (NZ : forall z : f64, rounds_to p (B2R z) m e -> finite z /\ Bsign z = (m <? 0)).
  { intros z (Hm & H1 & H2). assert (P0 : 0 < 10 ^ (p - 1)) by (apply Z.pow_pos_nonneg; lia). assert (PW : forall j, powerRZ 10 j = bpow ten j) by (intros j; symmetry; exact (bpow_powerRZ ten j)). rewrite !PW in *.
    pose proof (bpow_gt_0 ten e) as Pe. pose proof (bpow_gt_0 ten (e - 1)) as Pe'. assert (Q : (1 <= IZR (10 ^ p))%R) by (apply IZR_le; assert (0 < 10 ^ p) by (apply Z.pow_pos_nonneg; lia); lia).
    assert (NN : (0 < Rabs (B2R z))%R) by (eapply Rlt_trans; [|exact H2]; apply Rmult_lt_0_compat; lra).
    destruct z as [s|s| |s n k B]; try (exfalso; unfold B2R in NN; rewrite Rabs_R0 in NN; lra). split; [reflexivity|]. cbn [Bsign]. change (B2R (B754_finite s n k B)) with (value (B754_finite s n k B : f64)) in *. rewrite value_finite in H1. set (q := (IZR (Zpos n) * bpow radix2 k)%R) in *.
    assert (Pq : (0 < q)%R) by (apply Rmult_lt_0_compat; [apply IZR_lt; lia|apply bpow_gt_0]). apply Rabs_def2 in H1. destruct H1 as [L1 L2].
    destruct (Z.ltb_spec m 0) as [M|M]; destruct s; try reflexivity; exfalso.
    - assert (IZR m * bpow ten e <= -1 * bpow ten e)%R by (apply Rmult_le_compat_r; [lra|apply IZR_le; lia]). lra.
    - assert (1 * bpow ten e <= IZR m * bpow ten e)%R by (apply Rmult_le_compat_r; [lra|apply IZR_le; lia]). lra. }
  destruct (NZ x Hx) as [Fx Sx]. destruct (NZ y Hy) as [Fy Sy]. apply print_same; [exact Hp|exact Fx|exact Fy|congruence|].
  unfold value. rewrite (rounds_to_digits p _ m e Hp Hx), (rounds_to_digits p _ m e Hp Hy). reflexivity.
Qed.
