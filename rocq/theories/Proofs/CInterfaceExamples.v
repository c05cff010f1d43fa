(** Concrete uses of the C interface. *)
From Coq Require Import ZArith QArith List Ascii String Reals Lia.
From Verif Require Import Model.Outcome Model.Num Model.NumInst Model.PNDArray Model.BasisSet Model.Series Model.Samples Model.CInterface
  Spec.Tensor Spec.Basis Spec.Series Spec.Poly Spec.CInterface Proofs.OutcomeP Proofs.PNDArrayP Proofs.BasisP Proofs.SeriesRP Proofs.SeriesClientP Proofs.CInterfaceP Proofs.SampleSeriesP.
Import ListNotations.
Local Open Scope string_scope.
Local Open Scope list_scope.
Local Open Scope Z_scope.

Definition nopow (x y : Q) : Q := x.
Local Notation lib := (sample_library QOps nopow).
Local Notation S := (num_series QOps).

(** A Monomial set of two terms evaluated at 3, and a Chebyshev set of three terms. *)
Definition demo : outcome (list (bset Q Q)) :=
  let* a := checkout_set lib "Monomial" 2 in
  let* b := checkout_set lib "Chebyshev" 3 in
  match bs_eval 3%Q a with RRet a' _ => Ok [a'; b] | _ => NoFuel end.
Definition rok {S A : Type} (r : res S A) : outcome S := match r with RRet s _ => Ok s | RThrow _ e => Throw e | RExit => Exit | RUB r => UB r | RNoFuel => NoFuel end.

(** setnew, coefficient (1, 2) set to 5, evaluated at (3, 1/2): 5 * 3 * T_2(1/2). *)
Definition demo_setnew : outcome (Q * Q * Z * Z * Z * Q) :=
  let* bs := demo in
  let* s := dsis_setnew (O := QOps) (map Some bs ++ [None]) 2 in
  let* kept := stored_basis (S := S) s KVal 0 1 in
  let* s1 := rok (dsis_set_tensor_coeff (O := QOps) [1; 2] 5%Q s) in
  let* d := dsis_dim (O := QOps) s1 1 in
  let* i := dsis_linear_index (O := QOps) s1 [1; 2] in
  match se_call (S := S) [3%Q; (1 # 2)%Q] s1 with
  | RRet _ v => let* c := dsis_get_linear_coeff (O := QOps) s1 5 in Ok (Qred kept, Qred v, d, i, dsis_volume (O := QOps) s1, Qred c)
  | _ => NoFuel
  end.
(** The same with set on a new series. *)
Definition demo_set : outcome (Q * Q) :=
  let* bs := demo in
  let* s := rok (dsis_set (O := QOps) lib (map Some bs) 2 (dsis_new QOps)) in
  let* kept := stored_basis (S := S) s KVal 0 1 in
  let* s1 := rok (dsis_set_tensor_coeff (O := QOps) [1; 2] 5%Q s) in
  match se_call (S := S) [3%Q; (1 # 2)%Q] s1 with RRet _ v => Ok (Qred kept, Qred v) | _ => NoFuel end.

Lemma demo_setnew_value : demo_setnew = Ok (3%Q, (-15 # 2)%Q, 3, 5, 6, 5%Q).
Proof. vm_compute. reflexivity. Qed.
Lemma demo_set_value : demo_set = Ok (0%Q, (-15 # 2)%Q).
Proof. vm_compute. reflexivity. Qed.

(** A set that has been evaluated is stored evaluated by setnew and unevaluated by set. *)
Definition forgets : bool :=
  match demo with
  | Ok bs => match dsis_setnew (O := QOps) (map Some bs) 2, dsis_set (O := QOps) lib (map Some bs) 2 (dsis_new QOps) with
             | Ok s, RRet s' tt => match stored_basis (S := S) s KVal 0 1, stored_basis (S := S) s' KVal 0 1 with
                                   | Ok x, Ok y => if Qeq_dec x y then false else true | _, _ => false end
             | _, _ => false end
  | _ => false end.
Lemma forgets_true : forgets = true.
Proof. vm_compute. reflexivity. Qed.

(** Sets and a series for the theorems over the reals. *)
Lemma real_sets : forall pw, exists (bs : list (bset R R)) phis s, Forall (library_set (sample_library ROps pw)) bs /\
  Forall2 family_named (map (@bs_name _ _) bs) phis /\ sizes (S := RS) bs = [2; 3] /\ fit_sizes (sizes (S := RS) bs) /\
  dsis_setnew (O := ROps) (map Some bs) 2 = Ok s /\ series_over (S := RS) bs 0%R 1%R s.
Proof.
  intros pw.
  destruct (checkout_cases (O := ROps) [sample_class ROps pw "Chebyshev" chebyshev_classes chebyshev_cases]
    (sample_class ROps pw "Monomial" monomial_classes monomial_cases) [] 2) as ((a & Ea & Na & Sa & _) & _).
  { simpl. intros [H|[]]. discriminate. } { unfold int_max. lia. } { simpl. lia. }
  destruct (checkout_cases (O := ROps) [] (sample_class ROps pw "Chebyshev" chebyshev_classes chebyshev_cases)
    [sample_class ROps pw "Monomial" monomial_classes monomial_cases] 3) as ((b & Eb & Nb & Sb & _) & _).
  { simpl. auto. } { unfold int_max. lia. } { simpl. lia. }
  assert (La : library_set (sample_library ROps pw) a) by (eapply LibNew; [|exact Ea]; unfold int_max; lia).
  assert (Lb : library_set (sample_library ROps pw) b) by (eapply LibNew; [|exact Eb]; unfold int_max; lia).
  assert (HL : Forall (library_set (sample_library ROps pw)) [a; b]) by (constructor; [exact La|constructor; [exact Lb|constructor]]).
  assert (Hs : sizes (S := RS) [a; b] = [2; 3]) by (unfold sizes; cbn [map]; f_equal; [exact Sa|f_equal; exact Sb]).
  assert (Hf : fit_sizes (sizes (S := RS) [a; b])).
  { rewrite Hs. split; [apply usable_example|]. constructor; [unfold int_max; lia|constructor; [unfold int_max; lia|constructor]]. }
  assert (Hp : proper_basis (S := RS) [a; b]).
  { split; [|exact Hf]. destruct (library_sets _ _ HL) as (bs' & _ & _ & _ & Hr & _). exact Hr. }
  destruct (setnew_ok (O := ROps) [a; b] [] Hp) as (s & Es & Ho & _).
  exists [a; b], [(fun t x => (x ^ Z.to_nat t)%R); (fun t x => chebyshev (Z.to_nat t) x)], s.
  split; [exact HL|]. split.
  { cbn [map]. constructor; [left; split; [exact Na|reflexivity]|]. constructor; [right; split; [exact Nb|reflexivity]|constructor]. }
  split; [exact Hs|]. split; [exact Hf|]. split; [rewrite app_nil_r in Es; exact Es|exact Ho].
Qed.

(** A set whose class is not in the library: the empty library. *)
Lemma unknown_case : exists b : bset Q Q, checkout_set lib "Monomial" 2 = Ok b /\
  dsis_set (O := QOps) (firstn 1 lib) [Some b] 1 (dsis_new QOps) = RThrow (dsis_new QOps) RuntimeError.
Proof. eexists. split; [reflexivity|]. reflexivity. Qed.
Lemma forgets_witness : exists (bs : list (bset Q Q)) s s', Forall (library_set lib) bs /\
  dsis_setnew (O := QOps) (map Some bs) 2 = Ok s /\ dsis_set (O := QOps) lib (map Some bs) 2 (dsis_new QOps) = RRet s' tt /\
  stored_basis (S := S) s KVal 0 1 <> stored_basis (S := S) s' KVal 0 1.
Proof.
  pose proof forgets_true as H. unfold forgets in H. destruct demo as [bs| | | |] eqn:Ed; try discriminate. exists bs.
  destruct (dsis_setnew (O := QOps) (map Some bs) 2) as [s| | | |] eqn:E1; try discriminate.
  destruct (dsis_set (O := QOps) lib (map Some bs) 2 (dsis_new QOps)) as [s' []| | | |] eqn:E2; try discriminate.
  exists s, s'. split; [|split; [reflexivity|split; [reflexivity|]]].
  - unfold demo in Ed. destruct (checkout_set lib "Monomial" 2) as [a| | | |] eqn:Ea; try discriminate. cbn [obind] in Ed.
    destruct (checkout_set lib "Chebyshev" 3) as [b| | | |] eqn:Eb; try discriminate. cbn [obind] in Ed.
    destruct (bs_eval 3%Q a) as [a' l| | | |] eqn:Ee; try discriminate. injection Ed as <-.
    constructor; [|constructor; [|constructor]].
    + apply (LibRet lib a (BAll KVal 3%Q) a'); [eapply LibNew; [|exact Ea]; unfold int_max; lia|discriminate|].
      exact (f_equal (fun r => match r with RRet x _ => RRet x tt | RThrow x e => RThrow x e | RExit => RExit | RUB u => RUB u | RNoFuel => RNoFuel end) Ee).
    + eapply LibNew; [|exact Eb]. unfold int_max; lia.
  - intros Heq. rewrite Heq in H. destruct (stored_basis (S := S) s' KVal 0 1) as [x| | | |]; try discriminate.
    destruct (Qeq_dec x x) as [_|n]; [discriminate|apply n; reflexivity].
Qed.
