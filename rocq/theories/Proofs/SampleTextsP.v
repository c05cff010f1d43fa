(** The printed texts of the sample functions; arguments outside every piece. *)
From Coq Require Import ZArith List Bool String Reals Lra Lia.
From Verif Require Import Model.Outcome Model.Num Model.NumInst Model.Stream Model.PSimple Model.FuncObj Model.Piecewise Model.CExpr Model.Samples
  Spec.Funcs Spec.Piecewise Spec.Poly Proofs.PiecewiseP Proofs.PolyP Proofs.SampleSetsP.
Import ListNotations.
Local Open Scope R_scope.

(** One variable. *)
Definition texts_ok (c : sclass) : bool :=
  (String.eqb (sc_csrc c) (sc_eval c) &&
   match code c, read_sym c with
   | Some e, Some s => match norm e, norm s with
                       | Some p, Some q => if list_eq_dec Z.eq_dec (ptrim p) (ptrim q) then true else false
                       | _, _ => false
                       end
   | _, _ => false
   end)%bool.
Lemma texts_ok_spec : forall c, texts_ok c = true -> texts_same c (fun _ _ _ => True).
Proof.
  intros c H. unfold texts_ok in H. apply andb_prop in H. destruct H as [H1 H2]. split; [apply String.eqb_eq, H1|].
  destruct (code c) as [e|]; [|discriminate]. destruct (read_sym c) as [s|]; [|discriminate].
  destruct (norm e) as [p|] eqn:Ep; [|discriminate]. destruct (norm s) as [q|] eqn:Eq; [|discriminate].
  destruct (list_eq_dec Z.eq_dec (ptrim p) (ptrim q)) as [E|]; [|discriminate].
  exists e, s. split; [reflexivity|]. split; [reflexivity|]. intros pw x y _. exists (peval p x). split; [exact (norm_ok pw e p x [y] Ep)|].
  rewrite (peval_trim_eq p q x E). exact (norm_ok pw s q x [y] Eq).
Qed.
Lemma one_variable_texts : forallb texts_ok (monomial_classes ++ chebyshev_classes ++ quadratic_classes) = true.
Proof. vm_compute. reflexivity. Qed.

(** Two variables. *)
Ltac both :=
  split; [reflexivity|];
  match goal with |- exists e s, code ?c = Some e /\ _ =>
    let E := fresh in let S := fresh in
    destruct (code c) as [?e|] eqn:E; vm_compute in E; [injection E as <-|discriminate];
    destruct (read_sym c) as [?s|] eqn:S; vm_compute in S; [injection S as <-|discriminate] end;
  eexists _, _; split; [reflexivity|]; split; [reflexivity|].
Ltac values := cbn; change (Pos.to_nat 1) with 1%nat; cbn; eexists; split; [reflexivity|]; f_equal.
Lemma two_variable_texts : forall c, In c (myfunc_classes ++ firstn 14 mypiecewisefunc_classes) -> texts_same c (fun _ _ _ => True).
Proof.
  intros c H. cbn [app firstn myfunc_classes mypiecewisefunc_classes In] in H.
  repeat (destruct H as [<-|H]; [both; intros pw x y _; values; rr|]). contradiction.
Qed.
Lemma polynomial_texts : forall c, In c (monomial_classes ++ chebyshev_classes ++ quadratic_classes ++ myfunc_classes ++ firstn 14 mypiecewisefunc_classes) ->
  texts_same c (fun _ _ _ => True).
Proof.
  intros c H.
  assert (K : In c (monomial_classes ++ chebyshev_classes ++ quadratic_classes) \/ In c (myfunc_classes ++ firstn 14 mypiecewisefunc_classes)).
  { rewrite !in_app_iff in *. tauto. }
  destruct K as [K|K]; [|apply two_variable_texts, K].
  apply texts_ok_spec. pose proof one_variable_texts as L. rewrite forallb_forall in L. apply L, K.
Qed.
Lemma cone_texts : forall c, In c (skipn 14 mypiecewisefunc_classes) ->
  texts_same c (fun pw x y => (forall a b, 0 < a -> pw a b = Rpower a b) /\ 0 < x ^ 2 + y ^ 2).
Proof.
  intros c H. cbn [skipn mypiecewisefunc_classes In] in H.
  repeat (destruct H as [<-|H]; [both; intros pw x y [Hp Hr]; values; cbn in Hr; rewrite !Hp by lra;
    repeat match goal with
    | |- context [Rpower ?a ?b] =>
        lazymatch a with x ^ 2 + y ^ 2 => fail | _ => replace (Rpower a b) with (Rpower (x ^ 2 + y ^ 2) b) by (f_equal; ring) end
    end;
    repeat match goal with
    | |- context [Rpower ?a (?n / 2)] => lazymatch n with (- _) => replace (n / 2) with (- ((- n) / 2)) by field; rewrite ?Ropp_involutive end
    end; match goal with |- @eq _ ?a ?b => change (@eq R a b) end; ring|]). contradiction.
Qed.

(** No piece applies to an argument that is neither below nor at least zero. *)
Lemma no_piece_at : forall (O : NumOps) power (x y : num O) q o,
  nltb O x (literal O 0 0) = false -> nleb O (literal O 0 0) x = false -> same_pieces_as o (mypiecewise O power) ->
  exists o', ask (pw_class fobj_class) q [x; y] o = RThrow o' DomainError /\ same_pieces_as o' (mypiecewise O power).
Proof.
  intros O power x y q o H1 H2 (l & Ho & Hl).
  assert (U : unmatched l [x; y]).
  { unfold described, mypiecewise in Hl; cbn [pw_piece] in Hl.
    inversion Hl as [|p0 d0 ps0 l0 A0 B0]; subst. inversion B0 as [|p1 d1 ps1 l1 A1 B1]; subst. inversion B1 as [|p2 d2 ps2 l2 A2 B2]; subst.
    inversion B2; subst. destruct A0 as [E0 _], A1 as [E1 _], A2 as [E2 _]. cbn [pc_cond map new_cond sp_eval] in E0, E1, E2.
    assert (N : forall c1 c2, (exists b, cond_eval O power c1 [x; y] = Ok b) -> cond_eval O power c2 [x; y] = Ok false ->
      fails [cond_eval O power c1; cond_eval O power c2] [x; y]).
    { intros c1 c2 [b Hb] Hf. destruct b.
      - exists [cond_eval O power c1], (cond_eval O power c2), []. split; [reflexivity|]. split; [|exact Hf]. constructor; [exact Hb|constructor].
      - exists [], (cond_eval O power c1), [cond_eval O power c2]. split; [reflexivity|]. split; [constructor|exact Hb]. }
    constructor; [|constructor; [|constructor; [|constructor]]].
    - rewrite <- E0. exists [], (cond_eval O power piece0_cond0), []. split; [reflexivity|]. split; [constructor|].
      unfold cond_eval. destruct (parse_cond cpp (txt (sd_eval piece0_cond0))) as [e|] eqn:E; vm_compute in E; [injection E as <-|discriminate].
      cbn -[literal]. f_equal. exact H1.
    - rewrite <- E1. apply N.
      + unfold cond_eval. destruct (parse_cond cpp (txt (sd_eval piece1_cond0))) as [e|] eqn:E; vm_compute in E; [injection E as <-|discriminate].
        cbn -[literal]. change (Pos.to_nat 1) with 1%nat. cbn -[literal]. eauto.
      + unfold cond_eval. destruct (parse_cond cpp (txt (sd_eval piece1_cond1))) as [e|] eqn:E; vm_compute in E; [injection E as <-|discriminate].
        cbn -[literal]. f_equal. exact H2.
    - rewrite <- E2. apply N.
      + unfold cond_eval. destruct (parse_cond cpp (txt (sd_eval piece2_cond0))) as [e|] eqn:E; vm_compute in E; [injection E as <-|discriminate].
        cbn -[literal]. change (Pos.to_nat 1) with 1%nat. cbn -[literal]. eauto.
      + unfold cond_eval. destruct (parse_cond cpp (txt (sd_eval piece2_cond1))) as [e|] eqn:E; vm_compute in E; [injection E as <-|discriminate].
        cbn -[literal]. f_equal. exact H2. }
  destruct (no_piece fobj_class built_from o l [x; y] q Ho U) as (o' & H & H' & _). exists o'. split; [exact H|]. exists l. auto.
Qed.
