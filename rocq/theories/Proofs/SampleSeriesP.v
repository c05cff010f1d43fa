(** Series over the sample library's basis sets, as the C interface builds them. *)
From Coq Require Import ZArith List String Reals Lia.
From Coquelicot Require Import Coquelicot.
From Coq Require Import List.
From Verif Require Import Model.Outcome Model.Num Model.NumInst Model.PNDArray Model.BasisSet Model.Series Model.CExpr Model.Samples Model.CInterface
  Spec.Tensor Spec.Basis Spec.Series Spec.Poly Spec.CInterface Proofs.OutcomeP Proofs.PolyP Proofs.BasisP Proofs.SeriesRP Proofs.SeriesClientP Proofs.SampleSetsP
  Proofs.CInterfaceP.
Import ListNotations.
Local Open Scope Z_scope.

Section Sample.
Variable pw : R -> R -> R.
Local Notation lib := (sample_library ROps pw).

(** The coefficients of the polynomials of a family. *)
Definition coefs_of (name : string) (t : Z) : list Z := if String.eqb name "Monomial" then xcoefs (Z.to_nat t) else tcoefs (Z.to_nat t).
Definition terms_named (name : string) (k : kind) (t : Z) (x : R) : R := peval (polyk k (coefs_of name t)) x.

Lemma sample_class_terms : forall k t (x : R), 0 <= t < 30 ->
  terms_of (bc_fun (sample_class ROps pw "Monomial" monomial_classes monomial_cases)) (bc_dfun (sample_class ROps pw "Monomial" monomial_classes monomial_cases))
    (bc_ddfun (sample_class ROps pw "Monomial" monomial_classes monomial_cases)) k t x = Ok (terms_named "Monomial" k t x) /\
  terms_of (bc_fun (sample_class ROps pw "Chebyshev" chebyshev_classes chebyshev_cases)) (bc_dfun (sample_class ROps pw "Chebyshev" chebyshev_classes chebyshev_cases))
    (bc_ddfun (sample_class ROps pw "Chebyshev" chebyshev_classes chebyshev_cases)) k t x = Ok (terms_named "Chebyshev" k t x).
Proof.
  intros k t x Ht. split.
  - exact (family_ok _ _ _ monomial_ok pw k t x Ht).
  - exact (family_ok _ _ _ chebyshev_ok pw k t x Ht).
Qed.

Lemma set_terms : forall b, library_set lib b -> 0 <= bs_size b <= 30 /\ In (bs_name b) ["Monomial"%string; "Chebyshev"%string] /\
  (forall k t x, 0 <= t < bs_size b -> terms_of (bs_fun b) (bs_dfun b) (bs_ddfun b) k t x = Ok (terms_named (bs_name b) k t x)).
Proof.
  intros b H. destruct (library_in lib b H) as (c & Hi & I1 & I3 & I4 & I5 & I7 & I8). rewrite I1, I3, I4, I5.
  destruct Hi as [<-|[<-|[]]]; (assert (L : bs_size b <= 30) by exact I8);
    (split; [split; [apply I7|exact L]|]); (split; [simpl; auto|]); intros k t x Ht;
    destruct (sample_class_terms k t x (conj (proj1 Ht) (Z.lt_le_trans _ _ _ (proj2 Ht) L))) as [A B]; [exact B|exact A].
Qed.

(** The families as real functions, with derivatives. *)
Lemma named_family : forall name phi, family_named name phi -> forall t x, terms_named name KVal t x = phi t x.
Proof.
  intros name phi [[-> ->]|[-> ->]] t x; unfold terms_named, coefs_of; cbn [String.eqb Ascii.eqb Bool.eqb polyk]; [apply xcoefs_ok|apply tcoefs_ok].
Qed.
Lemma named_derivative : forall name phi, family_named name phi -> forall t u, is_derive (phi t) u (terms_named name KGrad t u).
Proof. intros name phi H t u. apply (is_derive_ext (fun x => terms_named name KVal t x)); [intros; apply (named_family name phi H)|]. apply pderiv_ok. Qed.
Lemma named_second : forall name t u, is_derive (terms_named name KGrad t) u (terms_named name KHess t u).
Proof. intros. apply pderiv_ok. Qed.

Lemma families : forall (bs : list (bset R R)) phis, Forall (library_set lib) bs -> Forall2 family_named (map (@bs_name _ _) bs) phis ->
  implements (S := RS) KVal bs phis /\ implements (S := RS) KGrad bs (map (fun b => terms_named (bs_name b) KGrad) bs) /\
  implements (S := RS) KHess bs (map (fun b => terms_named (bs_name b) KHess) bs) /\
  derivatives phis (map (fun b => terms_named (bs_name b) KGrad) bs) /\
  derivatives (map (fun b => terms_named (bs_name b) KGrad) bs) (map (fun b => terms_named (bs_name b) KHess) bs).
Proof.
  intros bs. induction bs as [|b bs IH]; intros phis HL HF; inversion HF as [|n phi ns phis' Hn HF']; subst.
  - repeat split; constructor.
  - inversion HL as [|? ? Hb HL']; subst. destruct (IH phis' HL' HF') as (A & B & C & D & E). destruct (set_terms b Hb) as (_ & _ & Ht).
    split; [|split; [|split; [|split]]]; (constructor; [|assumption]).
    + intros t x H. rewrite <- (named_family _ _ Hn t x). exact (Ht KVal t x H).
    + intros t x H. exact (Ht KGrad t x H).
    + intros t x H. exact (Ht KHess t x H).
    + intros t u. exact (named_derivative _ _ Hn t u).
    + intros t u. exact (named_second _ t u).
Qed.

Lemma sample_series : forall (bs : list (bset R R)) phis one (s : series RS) c xs,
  Forall (library_set lib) bs -> Forall2 family_named (map (@bs_name _ _) bs) phis -> fit_sizes (sizes (S := RS) bs) ->
  series_over (S := RS) bs 0%R one s -> coefficients s (sizes (S := RS) bs) c -> List.length xs = List.length bs ->
  (exists s', se_call (S := RS) xs s = RRet s' (series_fun (sizes (S := RS) bs) c phis xs)) /\
  (exists s', se_eval_grad (S := RS) xs s = RRet s' tt /\
     forall i, 0 <= i < Z.of_nat (List.length bs) ->
       exists g, se_get_grad s' i = Ok g /\ partial (series_fun (sizes (S := RS) bs) c phis) i xs g) /\
  (exists s', se_eval_hess (S := RS) xs s = RRet s' tt /\
     forall i j, 0 <= i < Z.of_nat (List.length bs) -> 0 <= j < Z.of_nat (List.length bs) ->
       exists h, se_get_hess s' i j = Ok h /\ se_get_hess s' j i = Ok h /\ second (series_fun (sizes (S := RS) bs) c phis) i j xs h).
Proof.
  intros bs phis one s c xs HL HF Hf Hs Hc Hx. destruct (families bs phis HL HF) as (A & B & C & D & E).
  assert (Hp : proper_basis (S := RS) bs).
  { split; [|exact Hf]. destruct (library_sets lib bs HL) as (bs' & _ & _ & _ & Hr & _). exact Hr. }
  split; [|split].
  - destruct (real_value bs one s c Hp Hs Hc phis xs A Hx) as (s' & G & _). exists s'. exact G.
  - exact (real_grad bs one s c Hp Hs Hc phis _ xs A B D Hx).
  - exact (real_hess bs one s c Hp Hs Hc phis _ _ xs A B C D E Hx).
Qed.
End Sample.
