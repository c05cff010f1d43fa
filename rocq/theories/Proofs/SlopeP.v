(** Derivatives of bilinear interpolation, written out (C58). *)
From Coq Require Import ZArith Reals Lra Lia.
From Coquelicot Require Import Coquelicot.
From Verif Require Import Model.Num Model.NumInst.
From Verif Require Import Spec.Shape Spec.Fields.
Local Open Scope R_scope.

Definition bilinear_slope (lo h : point2) (v : Z -> R) (i : Z) (r : point2) : R :=
  let s := (fst r - fst lo) / fst h in
  let t := (snd r - snd lo) / snd h in
  match i with
  | 0%Z => ((1 - t) * (v 1%Z - v 0%Z) + t * (v 2%Z - v 3%Z)) / fst h
  | _ => ((1 - s) * (v 3%Z - v 0%Z) + s * (v 2%Z - v 1%Z)) / snd h
  end.

Lemma bilinear_partial : forall lo h v i r, positive2 h -> (0 <= i <= 1)%Z -> partial2 (bilinear lo h v) i r (bilinear_slope lo h v i r).
Proof.
  intros [l1 l2] [h1 h2] v i [r1 r2] [P1 P2] Hi. cbn [fst snd] in P1, P2. change (num ROps) with R in *. assert (E : i = 0%Z \/ i = 1%Z) by lia. unfold partial2, bilinear, bilinear_slope.
  destruct E as [-> | ->]; cbn [upd2 nth2 fst snd]; change (num ROps) with R; auto_derive; auto; field; lra.
Qed.


Definition bilinear_twist (h : point2) (v : Z -> R) : R := (v 0%Z - v 1%Z + v 2%Z - v 3%Z) / (fst h * snd h).

Lemma bilinear_second : forall lo h v i j r, positive2 h -> (0 <= i <= 1)%Z -> (0 <= j <= 1)%Z ->
  second2 (bilinear lo h v) i j r (if (i =? j)%Z then 0 else bilinear_twist h v).
Proof.
  intros [l1 l2] [h1 h2] v i j [r1 r2] [P1 P2] Hi Hj. exists (bilinear_slope (l1, l2) (h1, h2) v i).
  split; [intros p; apply bilinear_partial; [split|]; assumption|]. cbn [fst snd] in P1, P2. change (num ROps) with R in *.
  assert (E : i = 0%Z \/ i = 1%Z) by lia. assert (E' : j = 0%Z \/ j = 1%Z) by lia.
  unfold partial2, bilinear_slope, bilinear_twist.
  destruct E as [-> | ->], E' as [-> | ->]; cbn [upd2 nth2 fst snd Z.eqb Pos.eqb]; change (num ROps) with R; auto_derive; auto; field; lra.
Qed.
