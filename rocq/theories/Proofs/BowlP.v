(** The derivatives of the sample piecewise function. *)
From Coq Require Import ZArith List Bool Reals Lra Lia.
From Coquelicot Require Import Coquelicot.
From Coq Require Import List.
From Verif Require Import Model.Outcome Spec.Funcs Spec.Series Spec.Poly Proofs.SamplePiecesP.
Import ListNotations.
Local Open Scope R_scope.

(** A function that near a point is one of two functions with the same value and derivative there. *)
Lemma glue : forall (f g h : R -> R) (x l : R), locally x (fun u => f u = g u \/ f u = h u) -> f x = g x -> f x = h x ->
  is_derive g x l -> is_derive h x l -> is_derive f x l.
Proof.
  intros f g h x l [d Hd] Eg Eh Hg Hh. apply is_derive_Reals. apply is_derive_Reals in Hg. apply is_derive_Reals in Hh.
  intros eps Heps. destruct (Hg eps Heps) as [d1 H1]. destruct (Hh eps Heps) as [d2 H2].
  assert (P : 0 < Rmin d (Rmin d1 d2)) by (apply Rmin_pos; [apply cond_pos|apply Rmin_pos; apply cond_pos]).
  exists (mkposreal _ P). intros t Ht Hlt. cbn in Hlt.
  pose proof (Rmin_l d (Rmin d1 d2)). pose proof (Rmin_r d (Rmin d1 d2)). pose proof (Rmin_l d1 d2). pose proof (Rmin_r d1 d2).
  destruct (Hd (x + t)) as [E|E].
  - unfold ball; cbn; unfold AbsRing_ball, abs, minus, plus, opp; cbn. replace (x + t + - x) with t by ring. lra.
  - rewrite E, Eg. apply H1; [exact Ht|lra].
  - rewrite E, Eh. apply H2; [exact Ht|lra].
Qed.

Lemma near_lt : forall (f : R -> R) (x c : R), continuous f x -> f x < c -> locally x (fun u => f u < c).
Proof. intros f x c Hf H. exact (Hf (fun z => z < c) (open_lt c (f x) H)). Qed.
Lemma near_gt : forall (f : R -> R) (x c : R), continuous f x -> c < f x -> locally x (fun u => c < f u).
Proof. intros f x c Hf H. exact (Hf (fun z => c < z) (open_gt c (f x) H)). Qed.

(** The point with coordinate [i] replaced. *)
Lemma lset2_0 : forall (x y u : R), lset [x; y] (Z.to_nat 0) u = [u; y]. Proof. reflexivity. Qed.
Lemma lset2_1 : forall (x y u : R), lset [x; y] (Z.to_nat 1) u = [x; u]. Proof. reflexivity. Qed.
Lemma nth2_0 : forall (x y : R), nth_error [x; y] (Z.to_nat 0) = Some x. Proof. reflexivity. Qed.
Lemma nth2_1 : forall (x y : R), nth_error [x; y] (Z.to_nat 1) = Some y. Proof. reflexivity. Qed.

Definition plane (q : quantity) (x y : R) : R :=
  match q with QVal => x | QGrad i => if Z.eqb i 0 then 1 else 0 | QHess _ _ => 0 end.
Definition dish (q : quantity) (x y : R) : R :=
  match q with QVal => x ^ 2 + y ^ 2 | QGrad i => 2 * (if Z.eqb i 0 then x else y) | QHess i j => if Z.eqb i j then 2 else 0 end.
Definition cone (q : quantity) (x y : R) : R :=
  let s := sqrt (x ^ 2 + y ^ 2) in
  match q with
  | QVal => s - 1 / 4
  | QGrad i => (if Z.eqb i 0 then x else y) / s
  | QHess i j => (if Z.eqb i j then / s else 0) - (if Z.eqb i 0 then x else y) * (if Z.eqb j 0 then x else y) / s ^ 3
  end.
Lemma figure_plane : forall q x y, x < 0 -> figure q [x; y] = plane q x y.
Proof. intros [|i|i j] x y H; unfold figure, bowl, gradient, hessian, plane; cbn -[pow]; destruct (Rlt_dec x 0); try lra; reflexivity. Qed.
Lemma figure_dish : forall q x y, 0 <= x -> x ^ 2 + y ^ 2 < 1 / 4 -> figure q [x; y] = dish q x y.
Proof.
  intros [|i|i j] x y H Hr; unfold figure, bowl, gradient, hessian, dish; cbn -[pow]; (destruct (Rlt_dec x 0); [lra|]);
    (destruct (Rlt_dec (x ^ 2 + y ^ 2) (1 / 4)); [|lra]); reflexivity.
Qed.
Lemma figure_cone : forall q x y, 0 <= x -> 1 / 4 <= x ^ 2 + y ^ 2 -> figure q [x; y] = cone q x y.
Proof.
  intros [|i|i j] x y H Hr; unfold figure, bowl, gradient, hessian, cone; cbn -[pow]; (destruct (Rlt_dec x 0); [lra|]);
    (destruct (Rlt_dec (x ^ 2 + y ^ 2) (1 / 4)); [lra|]); reflexivity.
Qed.

(** Derivatives of the three functions: from value to gradient and from gradient to Hessian. *)
Definition next (q : quantity) (i : Z) : quantity := match q with QVal => QGrad i | QGrad k => QHess k i | QHess _ _ => q end.
Definition early (q : quantity) : Prop := match q with QVal => True | QGrad i => (0 <= i < 2)%Z | QHess _ _ => False end.

Lemma sq_sqrt : forall r, 1 / 4 <= r -> sqrt r * sqrt r = r.
Proof. intros r H. apply sqrt_sqrt. lra. Qed.

Lemma plane_x : forall q x y, early q -> is_derive (fun u => plane q u y) x (plane (next q 0) x y).
Proof. intros [|i|i j] x y E; cbn in *; [|auto_derive; [exact I|ring]|contradiction]. auto_derive; [exact I|ring]. Qed.
Lemma plane_y : forall q x y, early q -> is_derive (fun u => plane q x u) y (plane (next q 1) x y).
Proof. intros [|i|i j] x y E; cbn in *; [|auto_derive; [exact I|ring]|contradiction]. auto_derive; [exact I|ring]. Qed.
Lemma dish_x : forall q x y, early q -> is_derive (fun u => dish q u y) x (dish (next q 0) x y).
Proof.
  intros [|i|i j] x y E; cbn in *; [auto_derive; [exact I|ring]| |contradiction].
  assert (i = 0%Z \/ i = 1%Z) as [-> | ->] by lia; cbn; auto_derive; try exact I; ring.
Qed.
Lemma dish_y : forall q x y, early q -> is_derive (fun u => dish q x u) y (dish (next q 1) x y).
Proof.
  intros [|i|i j] x y E; cbn in *; [auto_derive; [exact I|ring]| |contradiction].
  assert (i = 0%Z \/ i = 1%Z) as [-> | ->] by lia; cbn; auto_derive; try exact I; ring.
Qed.
Lemma cone_x : forall q x y, early q -> 1 / 4 <= x ^ 2 + y ^ 2 -> is_derive (fun u => cone q u y) x (cone (next q 0) x y).
Proof.
  intros q x y E H. pose proof (root_pos _ H) as Hs. pose proof (sq_sqrt _ H) as Hq.
  destruct q as [|i|i j]; [| |contradiction].
  - unfold cone, next; cbn -[pow]. auto_derive; [lra|].
    replace (x * (x * 1) + y * (y * 1)) with (x ^ 2 + y ^ 2) by ring. set (s := sqrt (x ^ 2 + y ^ 2)) in *. field. lra.
  - assert (i = 0%Z \/ i = 1%Z) as [-> | ->] by (cbn in E; lia); unfold cone, next; cbn -[pow]; auto_derive;
      try (repeat split; try lra; replace (x * (x * 1) + y * (y * 1)) with (x ^ 2 + y ^ 2) by ring; lra);
      replace (x * (x * 1) + y * (y * 1)) with (x ^ 2 + y ^ 2) by ring; set (s := sqrt (x ^ 2 + y ^ 2)) in *; field; lra.
Qed.
Lemma cone_y : forall q x y, early q -> 1 / 4 <= x ^ 2 + y ^ 2 -> is_derive (fun u => cone q x u) y (cone (next q 1) x y).
Proof.
  intros q x y E H. pose proof (root_pos _ H) as Hs. pose proof (sq_sqrt _ H) as Hq.
  destruct q as [|i|i j]; [| |contradiction].
  - unfold cone, next; cbn -[pow]. auto_derive; [lra|].
    replace (x * (x * 1) + y * (y * 1)) with (x ^ 2 + y ^ 2) by ring. set (s := sqrt (x ^ 2 + y ^ 2)) in *. field. lra.
  - assert (i = 0%Z \/ i = 1%Z) as [-> | ->] by (cbn in E; lia); unfold cone, next; cbn -[pow]; auto_derive;
      try (repeat split; try lra; replace (x * (x * 1) + y * (y * 1)) with (x ^ 2 + y ^ 2) by ring; lra);
      replace (x * (x * 1) + y * (y * 1)) with (x ^ 2 + y ^ 2) by ring; set (s := sqrt (x ^ 2 + y ^ 2)) in *; field; lra.
Qed.

Lemma cont_sq_x : forall x y : R, continuous (fun u : R => u ^ 2 + y ^ 2) x.
Proof. intros. apply (ex_derive_continuous (fun u : R => u ^ 2 + y ^ 2)). auto_derive. exact I. Qed.
Lemma cont_sq_y : forall x y : R, continuous (fun u : R => x ^ 2 + u ^ 2) y.
Proof. intros. apply (ex_derive_continuous (fun u : R => x ^ 2 + u ^ 2)). auto_derive. exact I. Qed.

(** Away from the line and the circle. *)
Lemma figure_x : forall q x y, early q -> x <> 0 -> x ^ 2 + y ^ 2 <> 1 / 4 \/ x < 0 -> is_derive (fun u => figure q [u; y]) x (figure (next q 0) [x; y]).
Proof.
  intros q x y E Hx Hr. destruct (Rlt_dec x 0) as [L|L].
  - rewrite figure_plane by exact L. apply (is_derive_ext_loc (fun u => plane q u y)); [|apply plane_x, E].
    apply (filter_imp (fun u => u < 0)); [intros u Hu; symmetry; apply figure_plane, Hu|]. apply (near_lt (fun u => u)); [apply continuous_id|exact L].
  - assert (P : 0 < x) by lra. assert (Q : locally x (fun u => 0 < u)) by (apply (near_gt (fun u => u)); [apply continuous_id|exact P]).
    destruct (Rlt_dec (x ^ 2 + y ^ 2) (1 / 4)) as [C|C].
    + rewrite figure_dish by lra. apply (is_derive_ext_loc (fun u => dish q u y)); [|apply dish_x, E].
      apply (filter_imp (fun u => 0 < u /\ u ^ 2 + y ^ 2 < 1 / 4)); [intros u [Hu1 Hu2]; symmetry; apply figure_dish; lra|].
      apply filter_and; [exact Q|]. apply (near_lt (fun u => u ^ 2 + y ^ 2)); [apply cont_sq_x|exact C].
    + assert (C' : 1 / 4 < x ^ 2 + y ^ 2) by (destruct Hr as [Hr|Hr]; lra).
      rewrite figure_cone by lra. apply (is_derive_ext_loc (fun u => cone q u y)); [|apply cone_x; [exact E|lra]].
      apply (filter_imp (fun u => 0 < u /\ 1 / 4 < u ^ 2 + y ^ 2)); [intros u [Hu1 Hu2]; symmetry; apply figure_cone; lra|].
      apply filter_and; [exact Q|]. apply (near_gt (fun u => u ^ 2 + y ^ 2)); [apply cont_sq_x|exact C'].
Qed.
Lemma figure_y : forall q x y, early q -> x ^ 2 + y ^ 2 <> 1 / 4 \/ x < 0 -> is_derive (fun u => figure q [x; u]) y (figure (next q 1) [x; y]).
Proof.
  intros q x y E Hr. destruct (Rlt_dec x 0) as [L|L].
  - rewrite figure_plane by exact L. apply (is_derive_ext (fun u => plane q x u)); [|apply plane_y, E]. intros u. symmetry; apply figure_plane, L.
  - destruct (Rlt_dec (x ^ 2 + y ^ 2) (1 / 4)) as [C|C].
    + rewrite figure_dish by lra. apply (is_derive_ext_loc (fun u => dish q x u)); [|apply dish_y, E].
      apply (filter_imp (fun u => x ^ 2 + u ^ 2 < 1 / 4)); [intros u Hu; symmetry; apply figure_dish; lra|].
      apply (near_lt (fun u => x ^ 2 + u ^ 2)); [apply cont_sq_y|exact C].
    + assert (C' : 1 / 4 < x ^ 2 + y ^ 2) by (destruct Hr as [Hr|Hr]; lra).
      rewrite figure_cone by lra. apply (is_derive_ext_loc (fun u => cone q x u)); [|apply cone_y; [exact E|lra]].
      apply (filter_imp (fun u => 1 / 4 < x ^ 2 + u ^ 2)); [intros u Hu; symmetry; apply figure_cone; lra|].
      apply (near_gt (fun u => x ^ 2 + u ^ 2)); [apply cont_sq_y|exact C'].
Qed.

(** On the circle the dish and the cone have the same value and gradient. *)
Lemma root_quarter : sqrt (1 / 4) = 1 / 2.
Proof. replace (1 / 4) with ((1 / 2) * (1 / 2)) by lra. apply sqrt_square. lra. Qed.
Lemma circle_value : forall x y, x ^ 2 + y ^ 2 = 1 / 4 -> dish QVal x y = cone QVal x y.
Proof. intros x y H. unfold dish, cone. rewrite H, root_quarter. lra. Qed.
Lemma circle_grad : forall x y i, x ^ 2 + y ^ 2 = 1 / 4 -> dish (QGrad i) x y = cone (QGrad i) x y.
Proof. intros x y i H. unfold dish, cone. rewrite H, root_quarter. lra. Qed.
Lemma value_x : forall x y, x <> 0 -> is_derive (fun u => bowl [u; y]) x (gradient 0 [x; y]).
Proof.
  intros x y Hx. destruct (Req_dec (x ^ 2 + y ^ 2) (1 / 4)) as [C|C].
  2:{ apply (figure_x QVal x y I Hx). left; exact C. }
  destruct (Rlt_dec x 0) as [L|L]; [apply (figure_x QVal x y I Hx); right; exact L|].
  assert (P : 0 < x) by lra.
  apply (glue _ (fun u => dish QVal u y) (fun u => cone QVal u y)).
  - apply (filter_imp (fun u => 0 < u)); [|apply (near_gt (fun u => u)); [apply continuous_id|exact P]].
    intros u Hu. destruct (Rlt_dec (u ^ 2 + y ^ 2) (1 / 4)); [left; apply (figure_dish QVal); lra|right; apply (figure_cone QVal); lra].
  - rewrite circle_value by exact C. apply (figure_cone QVal); lra.
  - apply (figure_cone QVal); lra.
  - replace (gradient 0 [x; y]) with (dish (QGrad 0) x y); [apply (dish_x QVal x y I)|]. rewrite circle_grad by exact C. symmetry. apply (figure_cone (QGrad 0)); lra.
  - replace (gradient 0 [x; y]) with (cone (QGrad 0) x y); [apply (cone_x QVal x y I); lra|]. symmetry. apply (figure_cone (QGrad 0)); lra.
Qed.
Lemma value_y : forall x y, is_derive (fun u => bowl [x; u]) y (gradient 1 [x; y]).
Proof.
  intros x y. destruct (Req_dec (x ^ 2 + y ^ 2) (1 / 4)) as [C|C].
  2:{ apply (figure_y QVal x y I). left; exact C. }
  destruct (Rlt_dec x 0) as [L|L]; [apply (figure_y QVal x y I); right; exact L|].
  apply (glue _ (fun u => dish QVal x u) (fun u => cone QVal x u)).
  - apply filter_forall. intros u. destruct (Rlt_dec (x ^ 2 + u ^ 2) (1 / 4)); [left; apply (figure_dish QVal); lra|right; apply (figure_cone QVal); lra].
  - rewrite circle_value by exact C. apply (figure_cone QVal); lra.
  - apply (figure_cone QVal); lra.
  - replace (gradient 1 [x; y]) with (dish (QGrad 1) x y); [apply (dish_y QVal x y I)|]. rewrite circle_grad by exact C. symmetry. apply (figure_cone (QGrad 1)); lra.
  - replace (gradient 1 [x; y]) with (cone (QGrad 1) x y); [apply (cone_y QVal x y I); lra|]. symmetry. apply (figure_cone (QGrad 1)); lra.
Qed.

Lemma bowl_partial : forall i x y, (0 <= i < 2)%Z -> x <> 0 \/ i = 1%Z -> partial bowl i [x; y] (gradient i [x; y]).
Proof.
  intros i x y Hi H. assert (i = 0%Z \/ i = 1%Z) as [-> | ->] by lia.
  - exists x. split; [reflexivity|]. apply (value_x x y). destruct H as [H|H]; [exact H|discriminate].
  - exists y. split; [reflexivity|]. exact (value_y x y).
Qed.
Lemma bowl_second : forall i j x y, (0 <= i < 2)%Z -> (0 <= j < 2)%Z -> x <> 0 -> x ^ 2 + y ^ 2 <> 1 / 4 \/ x < 0 ->
  second_near bowl i j [x; y] (hessian i j [x; y]).
Proof.
  intros i j x y Hi Hj Hx Hr. assert (j = 0%Z \/ j = 1%Z) as [-> | ->] by lia; exists (gradient i); [exists x|exists y].
  - split; [reflexivity|]. split.
    + apply (filter_imp (fun u => u <> 0)); [intros u Hu; rewrite lset2_0; apply bowl_partial; [exact Hi|left; exact Hu]|].
      destruct (Rlt_dec x 0) as [L|L].
      * apply (filter_imp (fun u => u < 0)); [intros; lra|]. apply (near_lt (fun u => u)); [apply continuous_id|exact L].
      * apply (filter_imp (fun u => 0 < u)); [intros; lra|]. apply (near_gt (fun u => u)); [apply continuous_id|lra].
    + exists x. split; [reflexivity|]. exact (figure_x (QGrad i) x y Hi Hx Hr).
  - split; [reflexivity|]. split.
    + apply filter_forall. intros u. rewrite lset2_1. apply bowl_partial; [exact Hi|left; exact Hx].
    + exists y. split; [reflexivity|]. exact (figure_y (QGrad i) x y Hi Hr).
Qed.

(** Along the line x = 0 there is a jump. *)
Lemma jump : forall g, ~ partial bowl 0 [0; 1] g.
Proof.
  intros g (xi & E & H). injection E as <-.
  assert (C : continuous (fun u : R => bowl (lset [0; 1] (Z.to_nat 0) u)) 0) by (apply (ex_derive_continuous (fun u : R => bowl (lset [0; 1] (Z.to_nat 0) u))); exists g; exact H).
  assert (V : bowl [0; 1] = 3 / 4).
  { unfold bowl; cbn -[pow]. destruct (Rlt_dec 0 0); [lra|]. replace (0 ^ 2 + 1 ^ 2) with 1 by ring. destruct (Rlt_dec 1 (1 / 4)); [lra|]. rewrite sqrt_1. lra. }
  assert (N : locally 0 (fun u : R => 0 < bowl (lset [0; 1] (Z.to_nat 0) u))).
  { apply near_gt; [exact C|]. rewrite lset2_0, V. lra. }
  destruct N as [d Hd]. specialize (Hd (- (d / 2))). rewrite lset2_0 in Hd. pose proof (cond_pos d) as Pd.
  assert (B : bowl [- (d / 2); 1] = - (d / 2)) by (unfold bowl; cbn -[pow]; destruct (Rlt_dec (- (d / 2)) 0); lra).
  rewrite B in Hd. assert (0 < - (d / 2)); [|lra]. apply Hd. unfold ball; cbn; unfold AbsRing_ball, abs, minus, plus, opp; cbn.
  replace (- (d / 2) + - 0) with (- (d / 2)) by ring. rewrite Rabs_Ropp, Rabs_pos_eq; lra.
Qed.

(** On the circle the Hessian is that of the cone only. *)
Lemma crease : ~ second_near bowl 0 0 [1 / 2; 0] (hessian 0 0 [1 / 2; 0]).
Proof.
  intros (D & xj & Ej & HD & (xi & Ei & H)). injection Ej as <-. injection Ei as <-.
  assert (V : hessian 0 0 [1 / 2; 0] = 0).
  { change (figure (QHess 0 0) [1 / 2; 0] = 0). rewrite figure_cone by lra. unfold cone; cbn -[pow]. replace ((1 / 2) ^ 2 + 0 ^ 2) with (1 / 4) by lra. rewrite root_quarter. field. }
  rewrite V in H.
  (* near the point the first derivative is that of the gradient *)
  assert (N : locally (1 / 2) (fun u : R => D [u; 0] = gradient 0 [u; 0])).
  { generalize (filter_and _ _ HD (near_gt (fun u => u) (1 / 2) 0 (continuous_id _) ltac:(lra))). apply filter_imp. intros u [(xi & E & Hu) Pu].
    rewrite lset2_0 in E, Hu. injection E as <-. apply is_derive_unique in Hu. rewrite <- Hu. apply is_derive_unique. apply value_x. lra. }
  assert (H' : is_derive (fun u : R => gradient 0 [u; 0]) (1 / 2) 0).
  { apply (is_derive_ext_loc (fun u : R => D [u; 0])); [exact N|]. exact H. }
  apply is_derive_Reals in H'. destruct (H' (1 / 2) ltac:(lra)) as [d Hd]. pose proof (cond_pos d) as Pd.
  set (t := Rmin (d / 2) (1 / 4)).
  assert (T1 : 0 < t) by (apply Rmin_pos; lra). assert (T2 : t <= d / 2) by apply Rmin_l. assert (T3 : t <= 1 / 4) by apply Rmin_r.
  specialize (Hd (- t) ltac:(lra)). rewrite Rabs_Ropp, (Rabs_pos_eq t) in Hd by lra. specialize (Hd ltac:(lra)).
  assert (G1 : gradient 0 [1 / 2; 0] = 1).
  { change (figure (QGrad 0) [1 / 2; 0] = 1). rewrite figure_cone by lra. unfold cone; cbn -[pow]. replace ((1 / 2) ^ 2 + 0 ^ 2) with (1 / 4) by lra. rewrite root_quarter. field. }
  assert (G2 : gradient 0 [1 / 2 + - t; 0] = 1 - 2 * t).
  { assert (Sq : (1 / 2 + - t) ^ 2 + 0 ^ 2 < 1 / 4) by (cbn; nra). change (figure (QGrad 0) [1 / 2 + - t; 0] = 1 - 2 * t). rewrite figure_dish by lra. unfold dish; cbn. lra. }
  rewrite G1, G2 in Hd. replace ((1 - 2 * t - 1) / - t - 0) with 2 in Hd by (field; lra). rewrite Rabs_pos_eq in Hd; lra.
Qed.
