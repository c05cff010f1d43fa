(** The sample basis sets. *)
From Coq Require Import ZArith List Bool String Reals Lra Lia.
From Coquelicot Require Import Coquelicot.
From Coq Require Import List.
From Verif Require Import Model.Outcome Model.Num Model.NumInst Model.Stream Model.BasisSet Model.CExpr Model.Samples Spec.Basis Spec.Poly
  Proofs.OutcomeP Proofs.BasisP Proofs.PolyP.
Import ListNotations.
Local Open Scope R_scope.

(** The texts of the three functions of a term. *)
Definition named_code (l : list sclass) (n : string) : option cexpr :=
  match class_named l n with Some c => code c | None => None end.
Lemma named_eval_code : forall O pw l n v, named_eval O pw l n v = match named_code l n with Some e => ceval O pw v e | None => NoFuel end.
Proof. intros. unfold named_eval, named_code, class_eval. destruct (class_named l n); reflexivity. Qed.

Definition term_ok (l : list sclass) (cases : list (string * string * string)) (p : nat -> list Z) (n : nat) : bool :=
  match nth_error cases n with
  | Some (f, g, h) => triple_ok (p n) (named_code l f) (named_code l g) (named_code l h)
  | None => false
  end.
Definition set_ok l cases p : bool := forallb (term_ok l cases p) (seq 0 30).

Lemma monomial_ok : set_ok monomial_classes monomial_cases xcoefs = true.
Proof. vm_compute. reflexivity. Qed.
Lemma chebyshev_ok : set_ok chebyshev_classes chebyshev_cases tcoefs = true.
Proof. vm_compute. reflexivity. Qed.

Section Set_.
Variables (l : list sclass) (cases : list (string * string * string)) (p : nat -> list Z).
Hypothesis ok : set_ok l cases p = true.

Definition sel (k : kind) (c : string * string * string) : string :=
  match k with KVal => fst (fst c) | KGrad => snd (fst c) | KHess => snd c end.
Definition polyk (k : kind) (q : list Z) : list Z := match k with KVal => q | KGrad => pderiv q | KHess => pderiv (pderiv q) end.

Lemma term_fun_ok : forall pw k t (x : R), (0 <= t < 30)%Z ->
  term_fun ROps pw l cases (sel k) t x = Ok (peval (polyk k (p (Z.to_nat t))) x).
Proof.
  intros pw k t x Ht.
  assert (Hok : term_ok l cases p (Z.to_nat t) = true).
  { unfold set_ok in ok. rewrite forallb_forall in ok. apply ok, in_seq. lia. }
  unfold term_ok in Hok. destruct (nth_error cases (Z.to_nat t)) as [[[f g] h]|] eqn:E; [|discriminate].
  apply triple_spec in Hok. destruct Hok as (H1 & H2 & H3).
  unfold term_fun. rewrite (proj2 (vget_some _ cases t (f, g, h))) by (split; [lia|exact E]). cbn [obind].
  rewrite named_eval_code.
  destruct k; cbn [sel fst snd polyk]; [destruct H1 as (c & -> & Hc)|destruct H2 as (c & -> & Hc)|destruct H3 as (c & -> & Hc)]; exact (Hc pw x).
Qed.

Definition family_of (O : NumOps) pw : terms (num O) (num O) :=
  terms_of (term_fun O pw l cases (sel KVal)) (term_fun O pw l cases (sel KGrad)) (term_fun O pw l cases (sel KHess)).
Lemma family_ok : forall pw k t x, (0 <= t < 30)%Z -> family_of ROps pw k t x = Ok (peval (polyk k (p (Z.to_nat t))) x).
Proof. intros pw k t x Ht. rewrite <- (term_fun_ok pw k t x Ht). destruct k; reflexivity. Qed.

Lemma make_size : forall (O : NumOps) pw (d : num O) name N, (0 <= N)%Z ->
  if Z.leb N 30 then exists b, sample_set O pw d name l cases N = Ok b /\ bs_size b = N /\ bs_limit b = Some 30%Z
  else sample_set O pw d name l cases N = if Z.ltb N (2 ^ 63) then Exit else Throw LengthError.
Proof.
  clear ok p. intros O pw d name N HN. unfold sample_set, bs_make, bs_resize, mbind, mget, mlift, mput. change (2 ^ 63)%Z with size_too_big.
  destruct (Z.leb_spec N 30) as [L|L]; cbn -[size_too_big].
  - destruct (Z.leb_spec size_too_big N) as [B|B]; [unfold size_too_big in B; lia|]. destruct (Z.ltb_spec 30 N); [lia|]. cbn -[size_too_big].
    eexists; split; [reflexivity|]. split; [|reflexivity]. unfold bs_size. cbn. fold (@vresize (num O) d [] (Z.to_nat N)).
    change (Z.of_nat (List.length (vresize d ([] : list (num O)) (Z.to_nat N))) = N). rewrite length_vresize_b. lia.
  - destruct (Z.leb_spec size_too_big N), (Z.ltb_spec N size_too_big); try lia; [reflexivity|].
    destruct (Z.ltb_spec 30 N); [reflexivity|lia].
Qed.

(** Every later state of such a set. *)
Lemma limit_run : forall (X A : Type) (d : A) F (b : bset X A) n m c b', agrees d F b n m -> (n <= 30)%Z -> bs_limit b = Some 30%Z ->
  (brun d c b = RRet b' tt \/ exists e, brun d c b = RThrow b' e) ->
  bs_limit b' = Some 30%Z /\ (brun d c b = RRet b' tt -> (match c with BResize n' => n' | _ => n end <= 30)%Z).
Proof.
  clear ok p. intros X A d F b n m c b' (Hn & Hf & Hlen & Hst & Hout) H30 Hlim. destruct c as [k t x|k x|n'].
  - simpl. unfold mbind, mret. rewrite bevaluate_eq. intros H. split; [|intros; exact H30].
    destruct (fun_of b k t x) as [a|e| | |]; [destruct (vset (cache b k) t a)|..]; destruct H as [H|[e' H]]; try discriminate; injection H; intros; subst;
      rewrite ?limit_set; exact Hlim.
  - simpl. unfold mbind, mret. rewrite bevaluate_all_eq. rewrite (bs_size_cache b n) by (auto; lia). unfold zseq.
    pose proof (sweep k x (Z.to_nat n) 0 b) as Hsw. rewrite Hlen in Hsw. specialize (Hsw ltac:(lia)).
    match goal with H : match ?r with _ => _ end |- _ => destruct r as [b1|b1 e1| | |] end; intros [H|[e H]]; try discriminate;
      (split; [|intros; exact H30]); injection H; intros; subst.
    + destruct Hsw as [(l0 & -> & _) _]. rewrite limit_set. exact Hlim.
    + destruct Hsw as (l0 & -> & _). rewrite limit_set. exact Hlim.
  - simpl. unfold bs_resize, mbind, mget, mlift, mput. rewrite Hlim. destruct (Z.ltb_spec 30 n') as [L|L]; [intros [H|[e H]]; discriminate|].
    destruct (size_too_big <=? n')%Z; intros [H|[e H]]; try discriminate; injection H; intros; subst; split; try exact Hlim; intros; try lia; discriminate.
Qed.

Lemma later_history : forall (O : NumOps) pw (d : num O) name N b0 b, (0 <= N)%Z -> sample_set O pw d name l cases N = Ok b0 -> later d b0 b ->
  bs_limit b = Some 30%Z /\ exists n m, bhistory d (family_of O pw) b n m /\ (n <= 30)%Z.
Proof.
  clear ok p. intros O pw d name N b0 b HN Hm Hl. induction Hl as [|b c b' Hl IH Hc Hr].
  - pose proof (make_size O pw d name N HN) as K. destruct (Z.leb_spec N 30) as [L|L]; [|rewrite K in Hm; destruct (Z.ltb N (2 ^ 63)); discriminate].
    destruct K as (b1 & E & _ & Hb). rewrite E in Hm. injection Hm as <-. split; [exact Hb|].
    exists N, nothing. split; [|exact L]. eapply BMake; [|exact HN|exact E]. intros [] t x; reflexivity.
  - destruct IH as (Hlim & n & m & Hh & H30).
    destruct (limit_run _ _ d (family_of O pw) b n m c b' (history_agrees_basis _ _ _ _ _ Hh) H30 Hlim Hr) as [Hlim' Hsz].
    split; [exact Hlim'|]. destruct Hr as [Hr|[e Hr]].
    + eexists _, _. split; [exact (BRet d _ b n m c b' Hh Hc Hr)|apply Hsz, Hr].
    + eexists _, _. split; [exact (BThrow d _ b n m c b' e Hh Hc Hr)|exact H30].
Qed.

Lemma set_offers : forall pw (d : R) name N b0 b f, (forall n x, peval (p n) x = f n x) -> (0 <= N)%Z ->
  sample_set ROps pw d name l cases N = Ok b0 -> later d b0 b -> (0 <= bs_size b <= 30)%Z /\ offers b f.
Proof.
  intros pw d name N b0 b f Hf HN Hm Hl. destruct (later_history ROps pw d name N b0 b HN Hm Hl) as (_ & n & m & Hh & H30).
  destruct (stored_is_last _ _ _ _ _ Hh) as (Hs & _). pose proof (history_agrees_basis _ _ _ _ _ Hh) as (Hn & _).
  change (num ROps) with R in *. split; [rewrite Hs; split; [apply Hn|exact H30]|]. intros t x Ht. rewrite Hs in Ht.
  assert (K : forall k, res_outcome (bevaluate k t x b) = Ok (peval (polyk k (p (Z.to_nat t))) x)).
  { intros k. etransitivity; [exact (single_returns d (family_of ROps pw) b n m k t x Hh Ht)|]. apply family_ok. lia. }
  split; [|split].
  - rewrite <- Hf. exact (K KVal).
  - eexists; split; [exact (K KGrad)|]. apply (is_derive_ext (peval (p (Z.to_nat t)))); [intros; apply Hf|]. apply pderiv_ok.
  - eexists; split; [exact (K KHess)|]. apply (is_derive_n_ext (peval (p (Z.to_nat t)))); [intros; apply Hf|]. apply second_derivative.
Qed.
End Set_.
