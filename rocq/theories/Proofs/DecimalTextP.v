(** The texts of decimal numbers: printing and scanning. *)
From Coq Require Import ZArith List Bool Ascii Reals Lia Lra.
From Flocq Require Import Core.
From Flocq Require Import IEEE754.BinarySingleNaN.
From Verif Require Import Model.Outcome Model.Num Model.NumInst Model.Stream Model.SeriesIO Model.Decimal.
From Verif Require Import Spec.Vtk Spec.Rounding Spec.Decimal.
From Verif Require Import Proofs.StreamP Proofs.SeriesIOP Proofs.DecimalP.
Import ListNotations.
Local Open Scope Z_scope.

(** ** Digits as a function *)
Definition isd (c : ascii) : Prop := exists d, 0 <= d <= 9 /\ c = numeral d.
Definition dv (c : ascii) : Z := match digit c with Some d => d | None => 0 end.
Definition dvf (a : Z) (t : text) : Z := fold_left (fun a c => a * 10 + dv c) t a.

Lemma dv_numeral d : 0 <= d <= 9 -> dv (numeral d) = d.
Proof. intros H. unfold dv. rewrite digit_numeral by exact H. reflexivity. Qed.
Lemma dvf_app a t u : dvf a (t ++ u) = dvf (dvf a t) u.
Proof. apply fold_left_app. Qed.
Lemma dvf_acc t : forall a, dvf a t = a * 10 ^ Z.of_nat (length t) + dvf 0 t.
Proof.
  induction t as [|c t IH]; intros a; [simpl; lia|]. cbn [dvf fold_left length]. fold (dvf (a * 10 + dv c) t). fold (dvf (0 * 10 + dv c) t). rewrite IH, (IH (0 * 10 + dv c)).
  rewrite Nat2Z.inj_succ, Z.pow_succ_r by lia. ring.
Qed.
Lemma digits_iff t n : digits t n <-> Forall isd t /\ n = dvf 0 t.
Proof.
  split.
  - induction 1 as [|t n d H [IH1 IH2] Hd]; [split; [constructor|reflexivity]|]. split; [apply Forall_app; split; [exact IH1|constructor; [exists d; auto|constructor]]|].
    rewrite dvf_app, <- IH2. cbn [dvf fold_left]. rewrite dv_numeral by exact Hd. lia.
  - intros [H ->]. induction t as [|c t IH] using rev_ind; [constructor|]. apply Forall_app in H. destruct H as [H1 H2]. inversion H2 as [|? ? (d & Hd & ->) _]. subst.
    rewrite dvf_app. cbn [dvf fold_left]. rewrite dv_numeral by exact Hd. replace (dvf 0 t * 10 + d) with (10 * dvf 0 t + d) by lia. constructor; [apply IH; exact H1|exact Hd].
Qed.
Lemma decimal_digits_of t n : decimal t n -> digits t n.
Proof.
  induction 1 as [d Hd|t n d H IH Hd].
  - replace d with (10 * 0 + d) at 2 by lia. apply (DigitsMore [] 0 d); [constructor|exact Hd].
  - constructor; assumption.
Qed.
Lemma digits_nonneg t n : digits t n -> 0 <= n.
Proof. induction 1; lia. Qed.
Lemma dvf_zeros k : forall a, dvf a (repeat "0"%char k) = a * 10 ^ Z.of_nat k.
Proof.
  induction k as [|k IH]; intros a; [simpl; lia|]. cbn [repeat dvf fold_left]. fold (dvf (a * 10 + dv "0") (repeat "0"%char k)). rewrite IH. change (dv "0") with 0.
  rewrite Nat2Z.inj_succ, Z.pow_succ_r by lia. ring.
Qed.
Lemma zeros_isd k : Forall isd (repeat "0"%char k).
Proof. apply Forall_forall. intros c H. apply repeat_spec in H. subst. exists 0. split; [lia|reflexivity]. Qed.

(** ** Printing *)
Lemma print_digits_length fuel : forall n k, 0 < k -> 10 ^ (k - 1) <= n < 10 ^ k -> k <= Z.of_nat fuel -> Z.of_nat (length (print_digits fuel n)) = k.
Proof.
  induction fuel as [|f IH]; intros n k Hk B F; [lia|]. cbn [print_digits]. rewrite app_length. cbn [length].
  destruct (Z.ltb_spec n 10) as [H|H].
  - cbn [length]. destruct (Z.eq_dec k 1) as [->|N]; [reflexivity|]. exfalso.
    assert (10 ^ 1 <= 10 ^ (k - 1)) by (apply Z.pow_le_mono_r; lia). lia.
  - destruct (Z.eq_dec k 1) as [->|N]; [simpl in B; lia|].
    assert (D : n = 10 * (n / 10) + n mod 10) by (apply Z.div_mod; lia). assert (M := Z.mod_pos_bound n 10 ltac:(lia)).
    replace k with (Z.succ (k - 1)) in B by lia. rewrite (Z.pow_succ_r 10 (k - 1)) in B by lia. replace (Z.succ (k - 1) - 1) with (Z.succ (k - 2)) in B by lia. rewrite Z.pow_succ_r in B by lia.
    specialize (IH (n / 10) (k - 1)). replace (k - 1 - 1) with (k - 2) in IH by lia. specialize (IH ltac:(lia) ltac:(lia) ltac:(lia)). lia.
Qed.
Lemma digits_of_ok n : 0 <= n -> decimal (digits_of n) n.
Proof.
  intros H. unfold digits_of. apply print_digits_ok; [|lia]. rewrite Nat2Z.inj_succ, Z2Nat.id by apply Z.log2_nonneg.
  destruct (Z.eq_dec n 0) as [-> | N]; [simpl; lia|]. destruct (Z.log2_spec n ltac:(lia)) as [_ L]. lia.
Qed.
Lemma digits_of_length p n : 1 <= p -> 10 ^ (p - 1) <= n < 10 ^ p -> Z.of_nat (length (digits_of n)) = p.
Proof.
  intros Hp B. unfold digits_of. assert (P : 0 < 10 ^ (p - 1)) by (apply Z.pow_pos_nonneg; lia). apply print_digits_length; [lia|exact B|].
  rewrite Nat2Z.inj_succ, Z2Nat.id by apply Z.log2_nonneg. assert (p - 1 <= Z.log2 n); [|lia]. apply Z.log2_le_pow2; [lia|]. apply Z.le_trans with (10 ^ (p - 1)); [|lia].
  apply Z.pow_le_mono_l. lia.
Qed.

Lemma strip_ok t : exists k, t = strip_zeros t ++ repeat "0"%char k.
Proof.
  induction t as [|c t (k & IH)]; [exists 0%nat; reflexivity|]. cbn [strip_zeros]. destruct (strip_zeros t) as [|a u].
  - destruct (Ascii.eqb_spec c "0") as [->|N].
    + exists (S k). cbn [app repeat] in *. f_equal. exact IH.
    + exists k. cbn [app] in *. f_equal. exact IH.
  - exists k. cbn [app] in *. f_equal. exact IH.
Qed.

(** A text of digits, part of it as a fraction without trailing zeros. *)
Lemma fraction_ok s neg i u n e x : sign_text s neg -> Forall isd (i ++ u) -> dvf 0 (i ++ u) = n -> i <> [] -> exponent_text e x ->
  decimal_text (s ++ i ++ fraction u ++ e) neg (IZR n * bpow ten (x - Z.of_nat (length u))).
Proof.
  intros Hs D V Ni He. destruct (strip_ok u) as (k & Ek). set (f := strip_zeros u) in *.
  exists s, i, (fraction u), f, e, (dvf 0 (i ++ f)), x. split; [reflexivity|]. split; [exact Hs|]. split.
  { unfold fraction. fold f. destruct f; [left; auto|right; reflexivity]. }
  split; [exact He|]. split.
  { apply digits_iff. split; [|reflexivity]. rewrite Ek, app_assoc in D. apply Forall_app in D. exact (proj1 D). }
  split; [destruct i; [congruence|discriminate]|].
  rewrite <- V, Ek, app_assoc, dvf_app, dvf_zeros, mult_IZR. rewrite app_length, repeat_length, Nat2Z.inj_add.
  replace (IZR (10 ^ Z.of_nat k)) with (bpow ten (Z.of_nat k)) by (symmetry; apply (IZR_Zpower ten); lia). rewrite Rmult_assoc, <- bpow_plus.
  change 10%R with (IZR ten). rewrite <- bpow_powerRZ. f_equal. f_equal. lia.
Qed.

Lemma exponent_ok x : exponent_text (exponent x) x.
Proof.
  right. unfold exponent. exists "e"%char, [if x <? 0 then "-"%char else "+"%char], ((if Z.abs x <? 10 then ["0"%char] else []) ++ digits_of (Z.abs x)), (x <? 0), (Z.abs x).
  split; [reflexivity|]. split; [auto|]. split.
  { unfold sign_text. destruct (x <? 0); auto. }
  split; [|destruct (Z.ltb_spec x 0); lia].
  pose proof (digits_of_ok (Z.abs x) ltac:(lia)) as D. destruct (Z.abs x <? 10); cbn [app]; [|exact D].
  generalize dependent (digits_of (Z.abs x)). generalize (Z.abs x). intros n t D. induction D as [d Hd|t n d D IH Hd].
  - replace d with (10 * 0 + d) at 2 by lia. apply (DecMore ["0"%char] 0 d); [|exact Hd]. exact (DecDigit 0 ltac:(lia)).
  - exact (DecMore ("0"%char :: t) n d IH Hd).
Qed.

Lemma general_ok s neg p N x : sign_text s neg -> 1 <= p -> 10 ^ (p - 1) <= N < 10 ^ p -> decimal_text (s ++ general p N x) neg (IZR N * bpow ten (x - (p - 1))).
Proof.
  intros Hs Hp B. assert (P : 0 < 10 ^ (p - 1)) by (apply Z.pow_pos_nonneg; lia).
  pose proof (digits_of_ok N ltac:(lia)) as D. apply decimal_digits_of, digits_iff in D. destruct D as [D1 D2]. pose proof (digits_of_length p N Hp B) as L. unfold general.
  set (ds := digits_of N) in *. assert (NE : forall k, (0 < k)%nat -> firstn k ds <> []) by (intros [|k] Hk; [lia|]; destruct ds; [simpl in L; lia|discriminate]).
  destruct (Z.leb_spec (-4) x) as [H4|H4]; cbn [andb]; [destruct (Z.ltb_spec x p) as [Hx|Hx]|].
  - destruct (Z.leb_spec 0 x) as [H0|H0].
    + set (k := Z.to_nat (x + 1)). rewrite <- (app_nil_r (fraction (skipn k ds))).
      replace (x - (p - 1)) with (0 - Z.of_nat (length (skipn k ds))) by (rewrite skipn_length; unfold k; lia).
      apply fraction_ok; [exact Hs|rewrite firstn_skipn; exact D1|rewrite firstn_skipn; symmetry; exact D2|apply NE; unfold k; lia|left; auto].
    + set (z := repeat "0"%char (Z.to_nat (- x - 1))). replace ("0"%char :: fraction (z ++ ds)) with (["0"%char] ++ fraction (z ++ ds) ++ []) by (rewrite app_nil_r; reflexivity).
      replace (x - (p - 1)) with (0 - Z.of_nat (length (z ++ ds))) by (unfold z; rewrite app_length, repeat_length; lia).
      apply fraction_ok; [exact Hs|  |  |discriminate|left; auto].
      * constructor; [exists 0; split; [lia|reflexivity]|]. apply Forall_app. split; [apply zeros_isd|exact D1].
      * cbn [app]. change ("0"%char :: z ++ ds) with (("0"%char :: z) ++ ds). unfold z. change ("0"%char :: repeat "0"%char (Z.to_nat (- x - 1))) with (repeat "0"%char (S (Z.to_nat (- x - 1)))).
        rewrite dvf_app, dvf_zeros. symmetry. exact D2.
  - replace (x - (p - 1)) with (x - Z.of_nat (length (skipn 1 ds))) by (rewrite skipn_length; lia).
    apply fraction_ok; [exact Hs|rewrite firstn_skipn; exact D1|rewrite firstn_skipn; symmetry; exact D2|apply NE; lia|apply exponent_ok].
  - replace (x - (p - 1)) with (x - Z.of_nat (length (skipn 1 ds))) by (rewrite skipn_length; lia).
    apply fraction_ok; [exact Hs|rewrite firstn_skipn; exact D1|rewrite firstn_skipn; symmetry; exact D2|apply NE; lia|apply exponent_ok].
Qed.


Lemma sign_ok (b : bool) : sign_text (if b then ["-"%char] else []) b.
Proof. destruct b; [left; auto|right; auto]. Qed.

Lemma double_range m e : SpecFloat.bounded 53 1024 m e = true -> (bpow radix2 (-1074) <= IZR (Zpos m) * bpow radix2 e < bpow radix2 1024)%R.
Proof.
  intros H. split.
  - unfold SpecFloat.bounded in H. apply andb_prop in H. destruct H as [H _]. unfold SpecFloat.canonical_mantissa in H. apply Zeq_bool_eq in H. unfold SpecFloat.fexp, SpecFloat.emin in H.
    apply Rle_trans with (1 * bpow radix2 e)%R; [rewrite Rmult_1_l; apply bpow_le; lia|]. apply Rmult_le_compat_r; [apply bpow_ge_0|]. apply IZR_le. lia.
  - pose proof (bounded_lt_emax 53 1024 m e H) as B. exact B.
Qed.
Lemma binary_decimal : (bpow ten (-400) <= bpow radix2 (-1074))%R /\ (bpow radix2 1024 < bpow ten 400)%R.
Proof.
  split.
  - change (-400) with (- (400)). change (-1074) with (- (1074)). rewrite !bpow_opp. apply Rinv_le; [apply bpow_gt_0|].
    rewrite <- (IZR_Zpower radix2) by lia. rewrite <- (IZR_Zpower ten) by lia. apply IZR_le. apply Z.leb_le. vm_compute. reflexivity.
  - rewrite <- (IZR_Zpower radix2) by lia. rewrite <- (IZR_Zpower ten) by lia. apply IZR_lt. apply Z.ltb_lt. vm_compute. reflexivity.
Qed.

(** The text of a finite non-zero double. *)
Lemma print_finite p s m e H : 1 <= p -> exists N x, print_double p (B754_finite s m e H) = (if s then ["-"%char] else []) ++ general p N x /\
  10 ^ (p - 1) <= N < 10 ^ p /\ (IZR N * bpow ten (x - (p - 1)))%R = to_digits p (IZR (Zpos m) * bpow radix2 e) /\ -400 <= x <= 400.
Proof.
  intros Hp. pose proof (double_range m e H) as [L U]. destruct binary_decimal as [BL BU]. pose proof (ratio_ok radix2 (Zpos m) e) as R. change (radix_val radix2) with 2 in R.
  unfold print_double. destruct (ratio 2 (Zpos m) e) as [n d]. cbn [fst snd] in R. destruct R as (Rd & Re & Rn).
  pose proof (dec_digits_ok p n d Hp (Rn ltac:(lia)) Rd) as D. rewrite Re in D. specialize (D ltac:(lra)). destruct (dec_digits p n d) as [N x]. exists N, x. destruct D as (D1 & D2 & D3). auto.
Qed.

Lemma value_finite s m e H : value (B754_finite s m e H : f64) = (if s then - (IZR (Zpos m) * bpow radix2 e) else IZR (Zpos m) * bpow radix2 e)%R.
Proof. unfold value, B2R, F2R. cbn [Fnum Fexp]. destruct s; cbn [cond_Zopp]; [change (Z.opp (Zpos m)) with (- Zpos m); rewrite opp_IZR; lra|reflexivity]. Qed.
Lemma finite_abs s m e H : Rabs (value (B754_finite s m e H : f64)) = (IZR (Zpos m) * bpow radix2 e)%R.
Proof.
  rewrite value_finite. pose proof (bpow_gt_0 radix2 e) as P. assert (Q : (0 < IZR (Zpos m))%R) by (apply IZR_lt; lia). assert (0 < IZR (Zpos m) * bpow radix2 e)%R by (apply Rmult_lt_0_compat; assumption).
  destruct s; [rewrite Rabs_Ropp|]; apply Rabs_pos_eq; lra.
Qed.

Lemma prints_digits p x : 1 <= p -> finite x -> decimal_text (print_double p x) (Bsign x) (to_digits p (Rabs (value x))).
Proof.
  intros Hp F. destruct x as [s|s| |s m e H]; [|discriminate F|discriminate F|].
  - cbn [print_double Bsign]. exists (if s then ["-"%char] else []), ["0"%char], [], [], [], 0, 0. split; [rewrite app_nil_r; reflexivity|]. split; [apply sign_ok|]. split; [left; auto|]. split; [left; auto|].
    split; [exact (DigitsMore [] 0 0 DigitsNone ltac:(lia))|]. split; [discriminate|]. unfold value, B2R. rewrite Rabs_R0. unfold to_digits. rewrite round_0 by typeclasses eauto. lra.
  - destruct (print_finite p s m e H Hp) as (N & x & E & B & V & _). rewrite E, finite_abs, <- V. cbn [Bsign]. apply general_ok; [apply sign_ok|exact Hp|exact B].
Qed.

(** ** Scanning *)
Lemma scan_count_ok t : forall a k r, Forall isd t -> scan_count a k (t ++ r) = scan_count (dvf a t) (k + Z.of_nat (length t)) r.
Proof.
  induction t as [|c t IH]; intros a k r F; [cbn [app dvf fold_left length]; rewrite Z.add_0_r; reflexivity|]. inversion F as [|? ? (d & Hd & ->) F']; subst. cbn [app scan_count length]. rewrite digit_numeral by exact Hd. rewrite IH by exact F'.
  cbn [dvf fold_left]. rewrite dv_numeral by exact Hd. f_equal. lia.
Qed.
Lemma scan_count_stop a k r : no_digit r -> scan_count a k r = (a, k, r).
Proof. intros H. destruct r as [|c r]; [reflexivity|]. cbn in *. rewrite H. reflexivity. Qed.

(** What may follow a number, or its parts. *)
Definition no_sign (r : text) : Prop := match r with [] => True | c :: _ => c <> "-"%char /\ c <> "+"%char end.
Lemma scan_sign_ok s neg r : sign_text s neg -> no_sign r -> scan_sign (s ++ r) = (neg, r).
Proof.
  intros [[-> ->]|[[-> | ->] ->]] H; [reflexivity| |reflexivity]. destruct r as [|c r]; [reflexivity|]. destruct H as [H1 H2]. cbn [app scan_sign].
  destruct (Ascii.eqb_spec c "-") as [E|_]; [contradiction|]. destruct (Ascii.eqb_spec c "+") as [E|_]; [contradiction|]. reflexivity.
Qed.
Lemma isd_no_sign c : isd c -> c <> "-"%char /\ c <> "+"%char.
Proof. intros (d & Hd & ->). assert (d = 0 \/ d = 1 \/ d = 2 \/ d = 3 \/ d = 4 \/ d = 5 \/ d = 6 \/ d = 7 \/ d = 8 \/ d = 9) as K by lia. repeat destruct K as [-> | K]; try subst d; split; discriminate. Qed.

Lemma decimal_ne u n : decimal u n -> Forall isd u /\ u <> [] /\ n = dvf 0 u.
Proof. intros H. split; [exact (proj1 (proj1 (digits_iff u n) (decimal_digits_of u n H)))|]. split; [destruct H as [d|t n d]; [discriminate|destruct t; discriminate]|exact (proj2 (proj1 (digits_iff u n) (decimal_digits_of u n H)))]. Qed.

Lemma ends_word_cases r : ends_word r -> r = [] \/ exists c t, r = c :: t /\ c <> "."%char /\ c <> "e"%char /\ c <> "E"%char /\ c <> "-"%char /\ c <> "+"%char.
Proof.
  intros [->|(c & t & -> & H)]; [left; reflexivity|right]. exists c, t. split; [reflexivity|]. unfold blank, newline in H. simpl in H. repeat (destruct H as [<-|H]; [repeat split; discriminate|]). contradiction.
Qed.

Lemma scanner_ok w neg x r : decimal_text w neg x -> ends_word r ->
  exists m k, 0 <= m /\ x = (IZR m * bpow ten k)%R /\ double_scanner (w ++ r) = (fst (stored (nearest_decimal neg m k)), snd (stored (nearest_decimal neg m k)), r).
Proof.
  intros (s & i & t & f & e & m & k & -> & Hs & Ht & He & Hm & Hne & ->) Hr. exists m, (k - Z.of_nat (length f)). pose proof (digits_nonneg _ _ Hm) as Nm. split; [exact Nm|]. split.
  { rewrite bpow_powerRZ. reflexivity. }
  apply digits_iff in Hm. destruct Hm as [F Em]. apply Forall_app in F. destruct F as [Fi Ff]. rewrite dvf_app in Em. pose proof (blank_no_digit r Hr) as Nr.
  assert (Ner : no_digit (e ++ r)).
  { destruct He as [[-> _]|(c & s' & u & b & n & -> & [-> | ->] & _)]; [exact Nr|reflexivity|reflexivity]. }
  assert (Nt : no_digit (t ++ e ++ r)).
  { destruct Ht as [[-> _]| ->]; [exact Ner|reflexivity]. }
  unfold double_scanner. rewrite <- !app_assoc. rewrite (scan_sign_ok s neg).
  2: exact Hs.
  2:{ destruct i as [|c i]; cbn [app].
      - destruct Ht as [[-> ->]| ->]; [exfalso; apply Hne; reflexivity|]. split; discriminate.
      - inversion Fi as [|? ? Hc _]. exact (isd_no_sign c Hc). }
  rewrite (scan_count_ok i 0 0 _ Fi), (scan_count_stop _ _ _ Nt). rewrite Z.add_0_l.
  assert (S2 : (match t ++ e ++ r with c :: t3 => if Ascii.eqb c "." then scan_count (dvf 0 i) 0 t3 else (dvf 0 i, 0, t ++ e ++ r) | [] => (dvf 0 i, 0, []) end) = (m, Z.of_nat (length f), e ++ r)).
  { destruct Ht as [[-> ->]| ->].
    - cbn [app length dvf fold_left] in *. subst m. destruct He as [[-> _]|(c & s' & u & b & n & -> & Hc & _)].
      + cbn [app]. destruct (ends_word_cases r Hr) as [->|(c & t & -> & Hc & _)]; [reflexivity|]. destruct (Ascii.eqb_spec c "."); [contradiction|reflexivity].
      + cbn [app]. destruct Hc as [-> | ->]; reflexivity.
    - cbn [app]. change (Ascii.eqb "." ".") with true. cbn iota. rewrite (scan_count_ok f _ 0 _ Ff), (scan_count_stop _ _ _ Ner), <- Em, Z.add_0_l. reflexivity. }
  cbv iota beta. unfold text in *. rewrite S2. clear S2. cbv iota beta.
  destruct (Z.eqb_spec (Z.of_nat (length i) + Z.of_nat (length f)) 0) as [Z0|_].
  { exfalso. apply Hne. destruct i; destruct f; simpl in Z0; try lia. reflexivity. }
  assert (SP : forall a (q : f64), (let (v, ok) := stored q in (v, ok, a : text)) = (fst (stored q), snd (stored q), a)) by (intros a q; destruct (stored q); reflexivity).
  unfold text in *.   cbv zeta. rewrite !SP. destruct He as [[-> ->]|(c & s' & u & b & n & -> & Hc & Hb & Hu & ->)].
  - cbn [app]. replace (0 - Z.of_nat (length f)) with (- Z.of_nat (length f)) by lia. destruct (ends_word_cases r Hr) as [->|(c & t' & -> & _ & H1 & H2 & _)]; [reflexivity|].
    destruct (Ascii.eqb_spec c "e"); [contradiction|]. destruct (Ascii.eqb_spec c "E"); [contradiction|]. reflexivity.
  - destruct (decimal_ne u n Hu) as (Fu & Nu & Eu). cbn [app]. replace (Ascii.eqb c "e" || Ascii.eqb c "E") with true by (destruct Hc as [-> | ->]; reflexivity). cbv iota. rewrite <- !app_assoc.
    rewrite (scan_sign_ok s' b); [|exact Hb|destruct u as [|c' u]; [congruence|]; inversion Fu as [|? ? Hc' _]; exact (isd_no_sign c' Hc')].
    rewrite (scan_count_ok u 0 0 _ Fu), (scan_count_stop _ _ _ Nr), <- Eu, Z.add_0_l. cbv iota.
    destruct (Z.eqb_spec (Z.of_nat (length u)) 0) as [Z0|_]; [exfalso; apply Nu; destruct u; [reflexivity|simpl in Z0; lia]|]. unfold text in *. rewrite SP. reflexivity.
Qed.
