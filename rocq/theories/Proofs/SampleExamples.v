(** The statements about the sample library, and concrete runs. *)
From Coq Require Import ZArith List Bool String Reals Lra Lia.
From Coquelicot Require Import Coquelicot.
From Coq Require Import List.
From Verif Require Import Model.Outcome Model.Num Model.NumInst Model.PSimple Model.FuncObj Model.BasisSet Model.Piecewise Model.CExpr Model.Samples
  Spec.Basis Spec.Funcs Spec.Piecewise Spec.Series Spec.Poly Proofs.OutcomeP Proofs.FuncObjP Proofs.BasisP Proofs.PolyP Proofs.SampleSetsP Proofs.SampleFuncsP
  Proofs.SamplePiecesP Proofs.BowlP.
Import ListNotations.
Local Open Scope string_scope.
Local Open Scope list_scope.
Local Open Scope R_scope.

Lemma monomials : forall pw (d : R) N b0 b, (0 <= N)%Z -> monomial_set ROps pw d N = Ok b0 -> later d b0 b ->
  (0 <= bs_size b <= 30)%Z /\ offers b (fun n x => x ^ n).
Proof. intros pw d N b0 b HN Hm Hl. exact (set_offers _ _ _ monomial_ok pw d "Monomial"%string N b0 b _ xcoefs_ok HN Hm Hl). Qed.
Lemma chebyshevs : forall pw (d : R) N b0 b, (0 <= N)%Z -> chebyshev_set ROps pw d N = Ok b0 -> later d b0 b ->
  (0 <= bs_size b <= 30)%Z /\ offers b chebyshev.
Proof. intros pw d N b0 b HN Hm Hl. exact (set_offers _ _ _ chebyshev_ok pw d "Chebyshev"%string N b0 b _ tcoefs_ok HN Hm Hl). Qed.
Lemma sizes : forall pw (d : R) N, (0 <= N)%Z ->
  if Z.leb N 30
  then (exists b, monomial_set ROps pw d N = Ok b /\ bs_size b = N) /\ (exists b, chebyshev_set ROps pw d N = Ok b /\ bs_size b = N)
  else monomial_set ROps pw d N = (if Z.ltb N (2 ^ 63) then Exit else Throw LengthError) /\
       chebyshev_set ROps pw d N = (if Z.ltb N (2 ^ 63) then Exit else Throw LengthError).
Proof.
  intros pw d N HN. pose proof (make_size monomial_classes monomial_cases ROps pw d "Monomial"%string N HN) as A.
  pose proof (make_size chebyshev_classes chebyshev_cases ROps pw d "Chebyshev"%string N HN) as B.
  destruct (Z.leb N 30).
  - destruct A as (a & A & A' & _), B as (b & B & B' & _). split; [exists a; split; [exact A|exact A']|exists b; split; [exact B|exact B']].
  - split; [exact A|exact B].
Qed.

(** A call on one of the sets returns the polynomial's value. *)
Lemma later_trans : forall (d : R) (b0 b : bset R R) c b', later d b0 b -> (forall n, c = BResize n -> (0 <= n)%Z) -> brun d c b = RRet b' tt -> later d b0 b'.
Proof. intros d b0 b c b' H Hn Hr. exact (LaterStep d b0 b c b' H Hn (or_introl Hr)). Qed.
Lemma call_runs : forall (d : R) N (b0 b : bset R R) k t (x a : R), (0 <= N)%Z -> chebyshev_set ROps Rpower d N = Ok b0 -> later d b0 b -> (0 <= t < bs_size b)%Z ->
  peval (polyk k (tcoefs (Z.to_nat t))) x = a -> exists b', bevaluate k t x b = RRet b' a /\ later d b0 b' /\ bs_size b' = bs_size b.
Proof.
  intros d N b0 b k t x a HN Hm Hl Ht Ha.
  destruct (later_history _ _ ROps Rpower d "Chebyshev"%string N b0 b HN Hm Hl) as (_ & n & m & Hh & H30). change (num ROps) with R in *.
  pose proof (history_agrees_basis _ _ _ _ _ Hh) as (Hn & Hf & Hlen & _). destruct (stored_is_last _ _ _ _ _ Hh) as (Hs & _). rewrite Hs in Ht.
  assert (E : fun_of b k t x = Ok a).
  { rewrite Hf. rewrite <- Ha. apply (family_ok _ _ _ chebyshev_ok). lia. }
  assert (R : exists l, vset (cache b k) t a = Ok l /\ List.length l = Z.to_nat n).
  { unfold vset. rewrite Hlen. replace ((0 <=? t) && (t <? Z.of_nat (Z.to_nat n)))%Z%bool with true by (symmetry; apply andb_true_intro; split; [apply Z.leb_le|apply Z.ltb_lt]; lia).
    eexists; split; [reflexivity|]. rewrite length_lset. apply Hlen. }
  destruct R as (l & R & Hll). exists (set_cache b k l).
  assert (B : bevaluate k t x b = RRet (set_cache b k l) a) by (rewrite bevaluate_eq, E, R; reflexivity).
  split; [exact B|]. split.
  - apply (later_trans d b0 b (BOne k t x)); [exact Hl|discriminate|]. cbn [brun]. unfold mbind, mret. rewrite B. reflexivity.
  - unfold bs_size. destruct k; cbn; [|reflexivity|reflexivity]. rewrite Hll. rewrite <- (Hlen KVal). reflexivity.
Qed.
Lemma set_run : exists b0 b1 b2 b3 : bset R R, chebyshev_set ROps Rpower 0 5 = Ok b0 /\
  later 0 b0 b1 /\ later 0 b0 b3 /\ bs_size b1 = 5%Z /\ bs_size b3 = 20%Z /\
  bs_call 3 (1 / 2) b0 = RRet b1 (-1) /\ bs_resize 0 20 b1 = RRet b2 tt /\ bs_call_grad 10 1 b2 = RRet b3 100.
Proof.
  pose proof (make_size chebyshev_classes chebyshev_cases ROps Rpower 0 "Chebyshev"%string 5 ltac:(lia)) as A. cbn [Z.leb Z.compare] in A. 
  change (exists b : bset R R, chebyshev_set ROps Rpower 0 5 = Ok b /\ bs_size b = 5%Z /\ bs_limit b = Some 30%Z) in A.
  destruct A as (b0 & A & S0 & L0).
  destruct (call_runs 0 5 b0 b0 KVal 3 (1 / 2) (-1) ltac:(lia) A (LaterNow 0 b0) ltac:(lia)) as (b1 & R1 & T1 & S1).
  { match goal with |- peval ?p _ = _ => let q := eval vm_compute in p in change p with q end. cbn. lra. }
  destruct (later_history _ _ ROps Rpower 0 "Chebyshev"%string 5 b0 b1 ltac:(lia) A T1) as (L1 & _). change (num ROps) with R in L1.
  assert (R2 : exists b2, bs_resize 0 20 b1 = RRet b2 tt /\ bs_size b2 = 20%Z).
  { unfold bs_resize, mbind, mget. rewrite L1. cbn -[size_too_big vresize Z.to_nat]. eexists; split; [reflexivity|].
    unfold bs_size; cbn -[vresize Z.to_nat]. rewrite length_vresize_b. reflexivity. }
  destruct R2 as (b2 & R2 & S2).
  assert (T2 : later 0 b0 b2).
  { apply (later_trans 0 b0 b1 (BResize 20)); [exact T1|intros n E; injection E as <-; lia|exact R2]. }
  destruct (call_runs 0 5 b0 b2 KGrad 10 1 100 ltac:(lia) A T2 ltac:(lia)) as (b3 & R3 & T3 & S3).
  { change (Z.to_nat 10) with 10%nat. rewrite <- ptrim_ok. match goal with |- peval ?p _ = _ => let q := eval vm_compute in p in change p with q end. cbn. lra. }
  exists b0, b1, b2, b3. split; [exact A|]. split; [exact T1|]. split; [exact T3|]. split; [lia|]. split; [lia|]. split; [exact R1|]. split; [exact R2|]. exact R3.
Qed.

Lemma myfunc_run : exists o1 o2, evaluate QVal [2; -1] (myfunc ROps Rpower) = RRet o1 5 /\ like o1 (myfunc ROps Rpower) /\
  evaluate (QHess 0 1) [2; -1] o1 = RRet o2 2.
Proof.
  set (o := myfunc ROps Rpower). set (F := fun q => match component o q with Ok s => Some (sp_eval s) | _ => None end).
  assert (B : built_from o F) by (apply family_component; reflexivity).
  destruct (evaluate_spec o F QVal _ [2; -1] 5 B eq_refl) as (o1 & R1 & B1 & _).
  { assert (K : cubic_fun [2; -1] = 5) by (unfold cubic_fun; cbn; ring). exact (eq_trans (mf_f Rpower 2 (-1)) (f_equal (@Ok R) K)). }
  destruct (evaluate_spec o1 F (QHess 0 1) (named_eval ROps Rpower myfunc_classes "MyFunc_hess_0_1") [2; -1] 2 B1 eq_refl) as (o2 & R2 & _).
  { assert (K : 2 * 2 + 2 * -1 = 2) by ring. exact (eq_trans (mf_h01 Rpower 2 (-1)) (f_equal (@Ok R) K)). }
  exists o1, o2. split; [exact R1|]. split; [|exact R2]. exists F. split; assumption.
Qed.

Lemma self_pieces : forall O power, same_pieces_as (mypiecewise O power) (mypiecewise O power).
Proof.
  intros O power. set (fam := fun o : fobj (list (num O)) (num O) => fun q => match component o q with Ok s => Some (sp_eval s) | _ => None end).
  exists (map (fun p => (map sp_eval (pc_cond p), fam (pc_expr p))) (pw_piece (mypiecewise O power))).
  assert (D : described built_from (mypiecewise O power) (map (fun p => (map sp_eval (pc_cond p), fam (pc_expr p))) (pw_piece (mypiecewise O power)))).
  { unfold described. induction (pw_piece (mypiecewise O power)) as [|p l IH]; constructor; [|exact IH]. split; [reflexivity|]. apply family_component. reflexivity. }
  split; exact D.
Qed.

Lemma bowl_value : forall power, (forall a b, 0 < a -> power a b = Rpower a b) -> forall o x y, same_pieces_as o (mypiecewise ROps power) ->
  exists o', ask (pw_class fobj_class) QVal [x; y] o = RRet o' (bowl [x; y]) /\ same_pieces_as o' (mypiecewise ROps power).
Proof. intros power Hp o x y Ho. exact (bowl_figures power Hp o x y QVal Ho I). Qed.
Lemma bowl_gradient : forall power, (forall a b, 0 < a -> power a b = Rpower a b) -> forall o x y i, same_pieces_as o (mypiecewise ROps power) ->
  x <> 0 \/ i = 1%Z -> (0 <= i < 2)%Z ->
  exists o' g, ask (pw_class fobj_class) (QGrad i) [x; y] o = RRet o' g /\ same_pieces_as o' (mypiecewise ROps power) /\ partial bowl i [x; y] g.
Proof.
  intros power Hp o x y i Ho Hx Hi. destruct (bowl_figures power Hp o x y (QGrad i) Ho Hi) as (o' & H & H').
  exists o', (gradient i [x; y]). split; [exact H|]. split; [exact H'|]. apply bowl_partial; [exact Hi|exact Hx].
Qed.
Lemma bowl_hessian : forall power, (forall a b, 0 < a -> power a b = Rpower a b) -> forall o x y i j, same_pieces_as o (mypiecewise ROps power) ->
  x <> 0 -> x ^ 2 + y ^ 2 <> 1 / 4 \/ x < 0 -> (0 <= i < 2)%Z -> (0 <= j < 2)%Z ->
  exists o' h, ask (pw_class fobj_class) (QHess i j) [x; y] o = RRet o' h /\ same_pieces_as o' (mypiecewise ROps power) /\ second_near bowl i j [x; y] h.
Proof.
  intros power Hp o x y i j Ho Hx Hr Hi Hj. destruct (bowl_figures power Hp o x y (QHess i j) Ho (conj Hi Hj)) as (o' & H & H').
  exists o', (hessian i j [x; y]). split; [exact H|]. split; [exact H'|]. apply bowl_second; assumption.
Qed.
Lemma bowl_run : exists o, ask (pw_class fobj_class) (QGrad 0) [3; 4] (mypiecewise ROps Rpower) = RRet o (3 / 5) /\
  same_pieces_as o (mypiecewise ROps Rpower).
Proof.
  destruct (bowl_figures Rpower (fun _ _ _ => eq_refl) (mypiecewise ROps Rpower) 3 4 (QGrad 0) (self_pieces _ _) ltac:(cbn; lia)) as (o & H & H').
  exists o. split; [|exact H'].
  replace (3 / 5) with (figure (QGrad 0) [3; 4]); [exact H|]. unfold figure, gradient. cbn -[pow]. destruct (Rlt_dec 3 0); [lra|]. destruct (Rlt_dec (3 ^ 2 + 4 ^ 2) (1 / 4)); [lra|].
  replace (3 ^ 2 + 4 ^ 2) with (5 * 5) by ring. rewrite sqrt_square by lra. reflexivity.
Qed.
Lemma gradient_refuted : forall power, (forall a b, 0 < a -> power a b = Rpower a b) ->
  exists v i o g, ask (pw_class fobj_class) (QGrad i) v (mypiecewise ROps power) = RRet o g /\ ~ partial bowl i v g.
Proof.
  intros power Hp. destruct (bowl_figures power Hp _ 0 1 (QGrad 0) (self_pieces _ _) ltac:(cbn; lia)) as (o & H & _).
  exists [0; 1], 0%Z, o, (gradient 0 [0; 1]). split; [exact H|]. apply jump.
Qed.
Lemma hessian_refuted : forall power, (forall a b, 0 < a -> power a b = Rpower a b) ->
  exists v i j o h, nth 0 v 0 <> 0 /\ ask (pw_class fobj_class) (QHess i j) v (mypiecewise ROps power) = RRet o h /\ ~ second_near bowl i j v h.
Proof.
  intros power Hp. destruct (bowl_figures power Hp _ (1 / 2) 0 (QHess 0 0) (self_pieces _ _) ltac:(cbn; lia)) as (o & H & _).
  exists [1 / 2; 0], 0%Z, 0%Z, o, (hessian 0 0 [1 / 2; 0]). split; [cbn; lra|]. split; [exact H|]. exact crease.
Qed.
Lemma nan_case : exists x : num FOps, nltb FOps x (literal FOps 0 0) = false /\ nleb FOps (literal FOps 0 0) x = false.
Proof. exists (ndiv FOps (nofZ FOps 0) (nofZ FOps 0)). vm_compute. split; reflexivity. Qed.
Lemma texts_case : (List.length monomial_classes = 90)%nat /\ (List.length mypiecewisefunc_classes = 21)%nat /\
  In (mkSclass "MyFunc_hess_0_1" " 2.0*var[0]+2.0*var[1]" " 2.0*var[0]+2.0*var[1]" "2*y+2*x") myfunc_classes.
Proof. split; [reflexivity|]. split; [reflexivity|]. right; right; right; right; left. reflexivity. Qed.
