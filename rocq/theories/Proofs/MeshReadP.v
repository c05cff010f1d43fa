(** Meshes that were read, in an arbitrary arithmetic. *)
From Coq Require Import ZArith List Bool Lia ZifyBool String.
From Verif Require Import Model.Outcome Model.Num Model.PNDArray Model.Bin Model.PSimple Model.Interpolator Model.Quad
  Model.Hexahedron Model.Mesh Model.PField.
From Verif Require Import Spec.Tensor Spec.NDHistory Spec.Grid Spec.Funcs Spec.Fields.
From Verif Require Import Proofs.OutcomeP Proofs.PNDArrayP Proofs.BinP Proofs.BinLaterP Proofs.FuncObjP Proofs.MeshP
  Proofs.FieldP.
Import ListNotations.
Local Open Scope Z_scope.

Lemma omap_ok : forall (A B : Type) (f : A -> outcome B) l r,
  omap f l = Ok r <-> Forall2 (fun a b => f a = Ok b) l r.
Proof.
  intros A B f l. induction l as [|a l IH]; intros r; simpl.
  - split; intros H; [injection H as <-; constructor|inversion H; auto].
  - destruct (f a) as [b| | | |] eqn:E; simpl; try (split; intros H; [discriminate|inversion H; congruence]).
    destruct (omap f l) as [r'| | | |]; simpl.
    + split; intros H.
      * injection H as <-. constructor; auto. apply IH; auto.
      * inversion H as [|? b' ? r'' H1 H2]; subst. apply IH in H2. congruence.
    + split; intros H; [discriminate|]. inversion H as [|? b' ? r'' H1 H2]; subst. apply IH in H2. discriminate.
    + split; intros H; [discriminate|]. inversion H as [|? b' ? r'' H1 H2]; subst. apply IH in H2. discriminate.
    + split; intros H; [discriminate|]. inversion H as [|? b' ? r'' H1 H2]; subst. apply IH in H2. discriminate.
    + split; intros H; [discriminate|]. inversion H as [|? b' ? r'' H1 H2]; subst. apply IH in H2. discriminate.
Qed.

(** The shapes for which an array can be made. *)
Lemma nd_make_fits : forall (A : Type) (d : A) dims s, nd_make d dims = Ok s -> dims <> [] ->
  Forall (fun n => 0 < n) dims -> proper_shape dims.
Proof.
  intros A d dims s H Hne Hpos. split; [auto|]. split; [auto|].
  assert (Hv : calc_volume dims <> UB UBOverflow).
  { intros E. unfold nd_make, nd_resize, mbind, mget, mlift, mmod in H. simpl in H. rewrite E in H. discriminate. }
  destruct (Z_le_dec (zprod dims) int_max) as [Hle|Hgt]; [exact Hle|]. exfalso. apply Hv.
  apply calc_volume_overflow. intros Hl. specialize (Hl (List.length dims)). rewrite firstn_all in Hl.
  unfold fits_int, int_max in *. lia.
Qed.

Lemma bin_make_good : forall (O : NumOps) (T : Type) (mn inc : list (num O)) N (b : bin O T) (P : T -> Prop),
  bin_make mn inc N = Ok b -> N <> [] -> Forall (fun n => 0 < n) N -> List.length mn = List.length N ->
  List.length inc = List.length N -> bin_good b /\ holds_only P b.
Proof.
  intros O T mn inc N b P H Hne Hpos L1 L2.
  destruct (max_loop_ok mn inc N L1 L2) as (mx & Hmx & _).
  assert (HN : proper_shape N).
  { pose proof H as H'. unfold bin_make in H'. rewrite Hmx in H'. cbn [obind] in H'.
    destruct (nd_make [] N) as [s| | | |] eqn:E; try discriminate. eapply nd_make_fits; eauto. }
  split.
  - destruct (bin_make_inv (T:=T) mn inc mx N HN L1 L2 Hmx) as (b' & Hb & Hinv & _).
    right. exists mn, inc, mx, N. congruence.
  - unfold bin_make in H. rewrite Hmx in H. cbn [obind] in H.
    rewrite (nd_make_ok _ (@nil T) N (proper_usable _ HN)) in H. cbn [obind] in H. injection H as <-.
    intros l Hl. simpl in Hl. apply repeat_spec in Hl. subst l. constructor.
Qed.

Section Read.
Context {O : NumOps} {K : kind O}.
Local Notation ip := (interp O (kpoint K)).

(** What field evaluation needs of the interpolators of a kind of mesh. *)
Definition answering : Prop :=
  (0 < kdim K)%nat /\ forall nd el p h k, it_node (kvalues K nd el p h k) = nd /\
  forall q c, on_axes (kdim K) q -> exists w, ask q c (kvalues K nd el p h k) = Ok w.

Definition made (it : ip) : Prop := exists nd el p h k, it = kvalues K nd el p h k.

Record mesh_inv (m : mesh O K) : Prop := mkMeshInv {
  mi_bin : bin_good (me_bin m);
  mi_items : holds_only (fun it => In it (me_interp m)) (me_bin m);
  mi_node : Forall (fun it => 0 <= it_node it < Z.of_nat (List.length (me_node m))) (me_interp m);
  mi_made : Forall made (me_interp m)
}.

Lemma holds_impl : forall (T : Type) (P Q : T -> Prop) (b : bin O T), (forall x, P x -> Q x) ->
  holds_only P b -> holds_only Q b.
Proof. intros T P Q b H Hb l Hl. eapply Forall_impl; [apply H|apply Hb; auto]. Qed.

Lemma mesh_points_inv : forall pts m m', answering -> mesh_inv m -> mesh_points pts m = RRet m' tt -> mesh_inv m'.
Proof.
  intros pts m m' [Hd _] [H1 H2 H3 H4] H. unfold mesh_points, mbind, mmod, mlift in H.
  destruct (omap (fun j => axis_grid (column pts j)) (seq 0 (kdim K))) as [ax| | | |] eqn:Eax; try discriminate.
  destruct (bin_make (map ax_min ax) (map ax_incr ax) (map ax_N ax)) as [b| | | |] eqn:Eb; try discriminate.
  injection H as <-. apply omap_ok in Eax.
  assert (Hl : List.length ax = kdim K).
  { rewrite <- (seq_length (kdim K) 0). clear -Eax. induction Eax; simpl; auto. }
  assert (HN : Forall (fun n => 0 < n) (map ax_N ax)).
  { apply Forall_map. clear -Eax. induction Eax as [|j a js ax H Hs IH]; constructor; auto.
    unfold axis_grid in H. destruct (existsb _ _); try discriminate.
    destruct (axis_sort _) as [|x l]; try discriminate.
    apply obind_ok in H. destruct H as (n & Hn & H). apply obind_ok in H. destruct H as (n2 & Hn2 & H).
    injection H as <-. simpl. apply cint_inv in Hn. apply cint_inv in Hn2. lia. }
  destruct (bin_make_good O ip _ _ _ b (fun it => In it (me_interp m)) Eb) as [G1 G2]; auto.
  { destruct ax; simpl in *; [lia|congruence]. }
  { rewrite !map_length. auto. }
  { rewrite !map_length. auto. }
  constructor; simpl; auto.
  eapply Forall_impl; [|exact H3]. simpl. rewrite app_length. lia.
Qed.

Lemma cell_interp_made : forall (node : list (kpoint K)) i cell its, answering -> cell_interp node i cell = Ok its ->
  Forall (fun it => 0 <= it_node it < Z.of_nat (List.length node)) its /\ Forall made its.
Proof.
  intros node i cell its [_ Ha] H. unfold cell_interp in H.
  apply obind_ok in H. destruct H as (cf & _ & H). apply obind_ok in H. destruct H as (pf & _ & H).
  apply obind_ok in H. destruct H as (c0 & _ & H). apply obind_ok in H. destruct H as (p0 & _ & H).
  apply omap_ok in H. revert H. generalize (seq 0 (kcorners K)). intros js H.
  induction H as [|j it js its H0 H [IH1 IH2]]; [split; constructor|].
  apply obind_ok in H0. destruct H0 as (cj & Hcj & H0). apply obind_ok in H0. destruct H0 as (pj & Hpj & H0).
  injection H0 as <-. split; constructor; auto.
  - destruct (Ha cj i pj (kdiff K pf p0) (Z.of_nat j)) as [-> _]. apply vget_ok_iff. eauto.
  - red. eauto 10.
Qed.

Lemma cells_loop_inv : forall cells i m m', answering -> mesh_inv m -> cells_loop i cells m = RRet m' tt ->
  mesh_inv m' /\ me_bin m' = me_bin m.
Proof.
  induction cells as [|cell cells IH]; intros i m m' Ha Hm H.
  - injection H as <-. auto.
  - cbn [cells_loop] in H. unfold mbind, mget, mlift, mput in H.
    destruct (cell_interp (me_node m) i cell) as [its| | | |] eqn:E; try discriminate.
    destruct (cell_interp_made _ _ _ _ Ha E) as [E1 E2].
    assert (Hm' : mesh_inv (mkMesh (me_min m) (me_max m) (me_node m) (me_interp m ++ its) (me_bin m))).
    { destruct Hm as [H1 H2 H3 H4]. constructor; simpl; auto.
      - eapply holds_impl; [|exact H2]. intros x Hx. apply in_or_app. auto.
      - apply Forall_app. auto.
      - apply Forall_app. auto. }
    destruct (IH _ _ _ Ha Hm' H) as [I1 I2]. split; auto.
Qed.

Lemma on_bin_ret : forall (A : Type) (a : M (bin O ip) A) (m m' : mesh O K) x, on_bin a m = RRet m' x ->
  exists b, a (me_bin m) = RRet b x /\ m' = mkMesh (me_min m) (me_max m) (me_node m) (me_interp m) b.
Proof.
  intros A a m m' x H. unfold on_bin in H. destruct (a (me_bin m)) as [b y| | | |]; try discriminate.
  injection H as <- <-. eauto.
Qed.

Lemma add_range_good : forall (T : Type) (x : T) lo hi (b b' : bin O T) u, bin_good b -> bin_add_range x lo hi b = RRet b' u -> bin_good b'.
Proof.
  intros T x lo hi b b' u [->|(mn & inc & mx & N & Hinv)] H.
  - exfalso. unfold bin_add_range, mbind, bin_local_indices, mmod in H. simpl in H. discriminate.
  - right. exists mn, inc, mx, N. eapply (proj2 (add_range_inv_steps x lo hi b b' (or_introl (ex_intro _ u H)))). exact Hinv.
Qed.

Lemma bin_all_inv : forall its (m m' : mesh O K), mesh_inv m -> (forall it, In it its -> In it (me_interp m)) ->
  mfor its (fun it => on_bin (bin_add_range it (kcoords K (it_min it)) (kcoords K (it_max it)))) m = RRet m' tt ->
  mesh_inv m'.
Proof.
  induction its as [|it its IH]; intros m m' Hm Hin H.
  - injection H as <-. auto.
  - cbn [mfor] in H. unfold mbind in H.
    destruct (on_bin _ m) as [m1 u| | | |] eqn:E; try discriminate.
    apply on_bin_ret in E. destruct E as (b & E & ->).
    eapply IH; [| |exact H].
    + destruct Hm as [H1 H2 H3 H4]. constructor; simpl; auto.
      * eapply add_range_good; eauto.
      * eapply add_range_only; [| |exact E]; [apply Hin; simpl; auto|exact H2].
    + simpl. intros it' Hit'. apply Hin. simpl; auto.
Qed.

Lemma mesh_read_inv : forall m, answering -> mesh_read m -> mesh_inv m.
Proof.
  intros m Ha H. induction H as [|m pts m' H IH Hp|m cells m' H IH Hc].
  - constructor; simpl; auto.
    + left. reflexivity.
    + intros l [].
  - eapply mesh_points_inv; eauto.
  - unfold mesh_cells, mbind, mget in Hc.
    destruct (cells_loop 0 cells m) as [m1 []| | | |] eqn:E; try discriminate.
    destruct (cells_loop_inv _ _ _ _ Ha IH E) as [I1 _].
    eapply bin_all_inv; [exact I1| |exact Hc]. auto.
Qed.

Lemma mesh_read_ok : forall (m : mesh O K) mx n, answering -> mesh_read m -> mesh_max_bin_size m = Ok mx -> mx <= INT_MAX ->
  (List.length (me_node m) <= n)%nat -> mesh_ok m n.
Proof.
  intros m mx n Ha Hr Hmx Hle Hn. destruct (mesh_read_inv m Ha Hr) as [H1 H2 H3 H4].
  destruct (max_size_good (me_bin m) mx H1 Hmx) as [_ Hs].
  constructor; auto.
  - intros t l Hl. specialize (Hs t l Hl). lia.
  - eapply holds_impl; [|exact H2]. intros it Hit. rewrite Forall_forall in H3. specialize (H3 it Hit). simpl in *. lia.
  - eapply holds_impl; [|exact H2]. intros it Hit. rewrite Forall_forall in H4.
    destruct (H4 it Hit) as (nd & el & p & h & k & ->). apply Ha.
Qed.

End Read.

Section New.
Context {O : NumOps} {K : kind O} {F : FieldOps O}.

Lemma pf_new_ok : forall name (m : mesh O K) data zero (p : pfield F), bin_good (me_bin m) ->
  pf_new name m data zero = Ok p -> field_ok m data zero (m, p).
Proof.
  intros name m data zero p Hg H. unfold pf_new in H. apply obind_ok in H. destruct H as (mx & Hmx & H). injection H as <-.
  destruct (max_size_good (me_bin m) mx Hg Hmx) as [H0 Hs].
  constructor; simpl; auto.
  - apply same_mesh_refl.
  - apply repeat_length.
  - split; [|apply repeat_length]. apply Forall_forall. intros r Hr. apply repeat_spec in Hr. subst r. apply repeat_length.
  - intros t l Hl. rewrite repeat_length. specialize (Hs t l Hl). lia.
  - intros t l Hl. rewrite repeat_length. specialize (Hs t l Hl). lia.
  - apply Forall_forall. intros n Hn. apply repeat_spec in Hn. auto.
Qed.

Lemma field_on_ok : forall (m0 : mesh O K) (data : list (ft F)) zero (p0 : pfield F), answering (K:=K) -> field_on m0 data zero p0 ->
  mesh_ok m0 (List.length data) /\ field_ok m0 data zero (m0, p0).
Proof.
  intros m0 data zero p0 Ha (Hr & Hn & (mx & Hmx & Hle) & name & Hp). split.
  - eapply mesh_read_ok; eauto.
  - eapply pf_new_ok; eauto. apply mi_bin. apply mesh_read_inv; auto.
Qed.

(** C24 *)
Lemma field_safe : forall (m0 : mesh O K) (data : list (ft F)) zero (p0 : pfield F) h m p q c, answering (K:=K) -> field_on m0 data zero p0 ->
  field_history (m0, p0) h (m, p) -> on_axes (kdim K) q ->
  match view (me_bin m0) (kcoords K c) with
  | Ok _ => exists s a, field_eval q c (m, p) = RRet s a
  | Throw e => exists s, field_eval q c (m, p) = RThrow s e
  | Exit => field_eval q c (m, p) = RExit
  | UB r => field_eval q c (m, p) = RUB r
  | NoFuel => field_eval q c (m, p) = RNoFuel
  end.
Proof.
  intros m0 data zero p0 h m p q c Ha Hon Hh Hq. destruct (field_on_ok _ _ _ _ Ha Hon) as [Hm Hf].
  pose proof (history_ok _ _ _ _ _ _ Hm Hf Hh) as Hf'.
  pose proof (field_eval_spec m0 data zero m p q c Hm Hf' Hq) as S.
  destruct (view (me_bin m0) (kcoords K c)) as [its|e| |r|]; auto.
  - destruct S as (m' & p' & a & S & _). eauto.
  - destruct S as (m' & S & _). eauto.
Qed.

(** C21: at claimed points, evaluation does not depend on the history. *)
Lemma field_deterministic : forall (m0 : mesh O K) (data : list (ft F)) zero (p0 : pfield F) c q, answering (K:=K) -> field_on m0 data zero p0 ->
  claimed m0 c -> on_axes (kdim K) q ->
  exists a, forall h m p, field_history (m0, p0) h (m, p) -> exists s, field_eval q c (m, p) = RRet s a.
Proof.
  intros m0 data zero p0 c q Ha Hon (its & it & Hv & Hit & Hr) Hq. destruct (field_on_ok _ _ _ _ Ha Hon) as [Hm Hf].
  pose proof (field_eval_spec m0 data zero m0 p0 q c Hm Hf Hq) as S. rewrite Hv in S.
  destruct S as (m' & p' & a & S & _ & S1 & _). exists a. intros h m p Hh.
  pose proof (history_ok _ _ _ _ _ _ Hm Hf Hh) as Hf'.
  pose proof (field_eval_spec m0 data zero m p q c Hm Hf' Hq) as S'. rewrite Hv in S'.
  destruct S' as (m2 & p2 & a2 & S' & _ & S1' & _).
  replace a with a2; [eauto|]. symmetry. eapply result_is_fun; [| | |exact S1|exact S1'].
  - transitivity data; [exact (fk_field _ _ _ _ Hf')|symmetry; exact (fk_field _ _ _ _ Hf)].
  - transitivity zero; [exact (fk_zero _ _ _ _ Hf')|symmetry; exact (fk_zero _ _ _ _ Hf)].
  - intros En. exfalso. pose proof (find_none _ _ En it Hit). simpl in *. congruence.
Qed.

(** C23: eval_grad and eval_hess. *)
Definition grads : list quantity := map QGrad (dims (K:=K)).
Definition hesses : list quantity := flat_map (fun i => map (QHess i) (dims (K:=K))) (dims (K:=K)).

Lemma in_dims : forall i, In i (dims (K:=K)) <-> 0 <= i < Z.of_nat (kdim K).
Proof.
  intros i. unfold dims. rewrite in_map_iff. split.
  - intros (n & <- & Hn). apply in_seq in Hn. lia.
  - intros H. exists (Z.to_nat i). split; [lia|]. apply in_seq. lia.
Qed.

Lemma in_grads : forall q, In q grads <-> exists i, q = QGrad i /\ 0 <= i < Z.of_nat (kdim K).
Proof.
  intros q. unfold grads. rewrite in_map_iff. split.
  - intros (i & <- & Hi). apply in_dims in Hi. eauto.
  - intros (i & -> & Hi). exists i. split; auto. apply in_dims; auto.
Qed.

Lemma in_hesses : forall q, In q hesses <-> exists i j, q = QHess i j /\ 0 <= i < Z.of_nat (kdim K) /\ 0 <= j < Z.of_nat (kdim K).
Proof.
  intros q. unfold hesses. rewrite in_flat_map. split.
  - intros (i & Hi & Hq). apply in_map_iff in Hq. destruct Hq as (j & <- & Hj). apply in_dims in Hi. apply in_dims in Hj. eauto.
  - intros (i & j & -> & Hi & Hj). exists i. split; [apply in_dims; auto|]. apply in_map_iff. exists j. split; auto. apply in_dims; auto.
Qed.

Lemma eval_all_refreshes : forall (m0 : mesh O K) (data : list (ft F)) zero (p0 : pfield F) h m p c qs, answering (K:=K) -> field_on m0 data zero p0 ->
  field_history (m0, p0) h (m, p) -> qs <> [] -> Forall (on_axes (kdim K)) qs ->
  match view (me_bin m0) (kcoords K c) with
  | Ok _ => exists m' p', eval_all qs c (m, p) = RRet (m', p') tt /\ forall q,
      (In q qs -> exists a, res_outcome (field_eval q c (m, p)) = Ok a /\ field_stored p' q = Ok a) /\
      (~ In q qs -> field_stored p' q = field_stored p q)
  | Throw e => exists m', eval_all qs c (m, p) = RThrow (m', p) e
  | Exit => eval_all qs c (m, p) = RExit
  | UB r => eval_all qs c (m, p) = RUB r
  | NoFuel => eval_all qs c (m, p) = RNoFuel
  end.
Proof.
  intros m0 data zero p0 h m p c qs Ha Hon Hh Hne Hqs. destruct (field_on_ok _ _ _ _ Ha Hon) as [Hm Hf].
  pose proof (history_ok _ _ _ _ _ _ Hm Hf Hh) as Hf'.
  pose proof (eval_all_spec m0 data zero qs c Hm Hqs m p Hf') as S.
  destruct (view (me_bin m0) (kcoords K c)) as [its|e| |r|] eqn:Ev; auto.
  - destruct S as (m' & p' & S & _ & _ & S1). exists m', p'. split; [exact S|]. intros q. destruct (S1 q) as [S2 S3]. split; [|exact S3].
    intros Hin. destruct (S2 Hin) as (a & R & St). exists a. split; [|exact St].
    rewrite Forall_forall in Hqs.
    pose proof (field_eval_spec m0 data zero m p q c Hm Hf' (Hqs q Hin)) as S'. rewrite Ev in S'.
    destruct S' as (m2 & p2 & a2 & S' & _ & R' & _). rewrite S'. simpl. f_equal.
    eapply result_is_fun; [| | |exact R'|exact R]; auto.
  - destruct (S Hne) as (m' & S' & _). exists m'. exact S'.
Qed.

End New.

(** ** The two kinds *)

Lemma vget_cons_cases2 : forall (A : Type) (a b : A) i, 0 <= i < 2 -> exists x, vget [a; b] i = Ok x.
Proof. intros A a b i H. apply vget_ok_iff. simpl. lia. Qed.

Lemma quad_answering : forall O, answering (K := quad_kind O).
Proof.
  intros O. split; [simpl; lia|]. intros nd el p h k. split; [reflexivity|]. intros [|i|i j] c Hq; simpl in Hq.
  - eexists; reflexivity.
  - simpl. unfold quad_dvalue. assert (i = 0 \/ i = 1) as [->| ->] by lia; eexists; reflexivity.
  - simpl. unfold quad_ddvalue. assert (i = 0 \/ i = 1) as [->| ->] by lia; assert (j = 0 \/ j = 1) as [->| ->] by lia;
      eexists; reflexivity.
Qed.

Lemma hex_answering : forall O, answering (K := hex_kind O).
Proof.
  intros O. split; [simpl; lia|]. intros nd el p h k. split; [reflexivity|]. intros [|i|i j] c Hq; simpl in Hq.
  - eexists; reflexivity.
  - simpl. unfold hex_dvalue. assert (i = 0 \/ i = 1 \/ i = 2) as [->|[->| ->]] by lia; eexists; reflexivity.
  - simpl. unfold hex_ddvalue. assert (i = 0 \/ i = 1 \/ i = 2) as [->|[->| ->]] by lia;
      assert (j = 0 \/ j = 1 \/ j = 2) as [->|[->| ->]] by lia; eexists; reflexivity.
Qed.
