(** C62: the generated basis sets and their function objects. *)
From Coq Require Import ZArith QArith List String Reals.
From Verif Require Import Model.Outcome Model.Num Model.NumInst Model.BasisSet Model.Samples Model.SampleSet.
From Verif Require Import Spec.Basis Spec.Poly Spec.SampleSet.
From Verif Require Import Proofs.PolyP Proofs.SampleSetP Proofs.SampleSetUseP.
Import ListNotations.
Open Scope Z_scope.

(** C62. Whatever a program does with sets of a generated class, it sees what it would see with plain families of functions that are copied, assigned
    and resized as values: the same numbers, sizes and exceptions, the same ends of the program and the same undefined behaviour. *)
Theorem C62_sets_are_families : forall (X A : Type) (c : setclass X A) (d : A) (F : terms X A) os, class_of_functions c F -> Forall unsigned_sizes os ->
  seen (object_methods c d) os = seen (family_methods (sk_name c) (sk_limit c) d F) os.
Proof. exact (fun X A c d F os H => sets_are_families c d F H os). Qed.
Print Assumptions C62_sets_are_families.

(** C62. After any program, evaluating a term that exists gives the value of its function; there are no others. *)
Theorem C62_one_term : forall (X A : Type) (c : setclass X A) (d : A) (F : terms X A) os x k t v l, class_of_functions c F -> Forall unsigned_sizes os ->
  seen (object_methods c d) (os ++ [SCall x k t v]) = Ok l -> exists l' a, l = l' ++ [One a] /\ 0 <= t < sk_limit c /\ F k t v = Ok a.
Proof. exact (fun X A c d F os x k t v l H => calls c d F H os x k t v l). Qed.
Print Assumptions C62_one_term.

(** C62. Evaluating all terms gives as many numbers as the set has terms, each the value of its function. *)
Theorem C62_all_terms : forall (X A : Type) (c : setclass X A) (d : A) (F : terms X A) os x k v l, class_of_functions c F -> Forall unsigned_sizes os ->
  seen (object_methods c d) (os ++ [SSize x; SEval x k v]) = Ok l ->
  exists l' g, l = l' ++ [Size (Z.of_nat (List.length g)); All g] /\ Z.of_nat (List.length g) <= sk_limit c /\
    forall i a, nth_error g i = Some a -> F k (Z.of_nat i) v = Ok a.
Proof. exact (fun X A c d F os x k v l H => all_calls c d F H os x k v l). Qed.
Print Assumptions C62_all_terms.

(** The classes meant, with any numbers. *)
Theorem C62_classes : forall (O : NumOps) pw,
  class_of_functions (monomial_class O pw) (sample_terms O pw monomial_classes monomial_cases) /\
  class_of_functions (chebyshev_class O pw) (sample_terms O pw chebyshev_classes chebyshev_cases).
Proof. exact sample_classes. Qed.
Print Assumptions C62_classes.

(** C62. With real numbers a program with Monomial objects sees powers and their derivatives... *)
Theorem C62_monomials : forall pw (d : R) os x k t (v : R) l, Forall unsigned_sizes os ->
  seen (object_methods (monomial_class ROps pw) d) (os ++ [SCall x k t v]) = Ok l ->
  exists l' a, l = l' ++ [One a] /\ 0 <= t < 30 /\ derived k (fun y => y ^ Z.to_nat t)%R v a.
Proof. exact monomial_calls. Qed.
Print Assumptions C62_monomials.

(** ... and one with Chebyshev objects Chebyshev polynomials. *)
Theorem C62_chebyshev : forall pw (d : R) os x k t (v : R) l, Forall unsigned_sizes os ->
  seen (object_methods (chebyshev_class ROps pw) d) (os ++ [SCall x k t v]) = Ok l ->
  exists l' a, l = l' ++ [One a] /\ 0 <= t < 30 /\ derived k (chebyshev (Z.to_nat t)) v a.
Proof. exact chebyshev_calls. Qed.
Print Assumptions C62_chebyshev.

Example C62_case_program :
  let os := [SNew 4; SCall 0 KVal 3 (2#1); SCopy 0; SCall 0 KVal 3 (3#1); SGet 1 KVal 3; SResize 1 6; SGet 1 KVal 3; SCall 1 KGrad 5 (1#1); SSize 1;
             SEval 0 KVal (2#1); SAssign 0 1; SSize 0; SGet 0 KGrad 5; SNew (2 ^ 64 - 1); SDestroy 1; SCall 0 KHess 2 (7#1)]%Q in
  seen (object_methods (chebyshev_class QOps (fun a _ => a)) 0%Q) os =
    Ok [Quiet; One (26#1); Quiet; One (99#1); One (26#1); Quiet; One (26#1); One (25#1); Size 6; All [1#1; 2#1; 7#1; 26#1]; Quiet; Size 6; One (25#1);
        Raised LengthError; Quiet; One (4#1)]%Q /\
  Forall unsigned_sizes os.
Proof. exact chebyshev_program. Qed.

(** Too many terms end the program; a term that does not exist, or a dead set, is undefined behaviour. *)
Example C62_case_ends :
  let I := object_methods (chebyshev_class QOps (fun a _ => a)) 0%Q in
  seen I [SNew 31] = Exit /\ seen I [SNew 30; SResize 0 31] = Exit /\ seen I [SNew 2; SCall 0 KVal 2 (1#1)%Q] = UB UBOutOfBounds /\
  seen I [SNew 2; SDestroy 0; SSize 0] = UB UBDangling.
Proof. exact chebyshev_ends. Qed.
