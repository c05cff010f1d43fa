(** Final forms of C21, C23 and C24, and examples on doubles. *)
From Coq Require Import ZArith List Bool Lia ZifyBool Reals Lra String.
From Verif Require Import Model.Outcome Model.Num Model.NumInst Model.PNDArray Model.Bin Model.PSimple Model.Interpolator
  Model.Quad Model.Hexahedron Model.Mesh Model.PField.
From Verif Require Import Spec.Tensor Spec.NDHistory Spec.Grid Spec.Funcs Spec.Shape Spec.Fields.
From Verif Require Import Proofs.OutcomeP Proofs.PNDArrayP Proofs.BinP Proofs.BinRP Proofs.ShapeP Proofs.FieldP Proofs.MeshReadP
  Proofs.MeshRP Proofs.RectP Proofs.HexP.
Import ListNotations.
Local Open Scope Z_scope.

(** ** C24 *)

Lemma quad_field_safe : forall (O : NumOps) (F : FieldOps O) (m0 : mesh O (quad_kind O)) (data : list (ft F)) zero p0 h m p q c,
  field_on m0 data zero p0 -> field_history (m0, p0) h (m, p) -> on_axes 2 q ->
  match view (me_bin m0) (kcoords (quad_kind O) c) with
  | Ok _ => exists s a, field_eval q c (m, p) = RRet s a
  | Throw e => exists s, field_eval q c (m, p) = RThrow s e
  | Exit => field_eval q c (m, p) = RExit
  | UB r => field_eval q c (m, p) = RUB r
  | NoFuel => field_eval q c (m, p) = RNoFuel
  end.
Proof. intros O F m0 data zero p0 h m p q c. exact (field_safe (K := quad_kind O) m0 data zero p0 h m p q c (quad_answering O)). Qed.

Lemma hex_field_safe : forall (O : NumOps) (F : FieldOps O) (m0 : mesh O (hex_kind O)) (data : list (ft F)) zero p0 h m p q c,
  field_on m0 data zero p0 -> field_history (m0, p0) h (m, p) -> on_axes 3 q ->
  match view (me_bin m0) (kcoords (hex_kind O) c) with
  | Ok _ => exists s a, field_eval q c (m, p) = RRet s a
  | Throw e => exists s, field_eval q c (m, p) = RThrow s e
  | Exit => field_eval q c (m, p) = RExit
  | UB r => field_eval q c (m, p) = RUB r
  | NoFuel => field_eval q c (m, p) = RNoFuel
  end.
Proof. intros O F m0 data zero p0 h m p q c. exact (field_safe (K := hex_kind O) m0 data zero p0 h m p q c (hex_answering O)). Qed.

Lemma off_limit : forall mn inc N mx c, grid_max mn inc N mx -> Forall2 (fun z x => x <> z) mx c ->
  inside mn inc N c \/ outside mn inc N c.
Proof.
  intros mn inc N mx c Hg. revert c. induction Hg as [|a h n z mn inc N mx Hz Hg IH]; intros c Hc;
    inversion Hc as [|? x ? c' Hx Hc']; subst; [left; constructor|].
  assert (Hl : List.length c' = List.length N /\ List.length mn = List.length c' /\ List.length (combine inc N) = List.length c').
  { clear -Hg Hc'. apply Forall2_len in Hc'. rewrite <- Hc'. clear Hc' c'.
    induction Hg as [|? ? ? ? ? ? ? ? _ Hg (I1 & I2 & I3)]; simpl; auto. }
  destruct Hl as (L1 & L2 & L3).
  destruct (Rlt_or_le x a) as [C1|C1].
  { right. split; [simpl; auto|]. simpl. apply Exists3_here; auto. }
  destruct (Rlt_or_le (a + h * IZR n) x) as [C2|C2].
  { right. split; [simpl; auto|]. simpl. apply Exists3_here; auto. }
  destruct (IH c' Hc') as [I|[I1 I2]].
  - left. constructor; auto. lra.
  - right. split; [simpl; auto|]. simpl. apply Exists3_later. auto.
Qed.

Lemma meshed_view_safe : forall (K : kind ROps), (0 < kdim K)%nat -> (forall p : kpoint K, List.length (kcoords K p) = kdim K) ->
  forall corner pos pts cells elems ax (m : mesh ROps K) c,
  meshed (K := K) corner pos pts cells elems ax m -> zprod (grid_shape (K := K) pts) <= int_max ->
  Forall2 (fun z x => x <> z) (bin_max (me_bin m)) (kcoords K c) ->
  (exists l, view (me_bin m) (kcoords K c) = Ok l) \/ view (me_bin m) (kcoords K c) = Throw DomainError.
Proof.
  intros K Hd Hco corner pos pts cells elems ax m c Hm Hz Hc.
  pose proof (axes_grid (K := K) Hd Hco _ _ (md_axes _ _ _ _ _ _ _ Hm) Hz) as Hgrid.
  destruct (reachable_inv _ _ _ _ Hgrid _ (md_bin _ _ _ _ _ _ _ Hm)) as (mx & Hinv & Hg & _).
  rewrite (BinP.inv_max _ _ _ _ _ Hinv) in Hc.
  destruct (off_limit _ _ _ _ _ Hg Hc) as [I|I].
  - left. rewrite (md_view _ _ _ _ _ _ _ Hm _ I). eauto.
  - right. destruct (bin_outside_spec _ _ _ _ Hgrid (me_bin m) (BContents (kcoords K c)) (md_bin _ _ _ _ _ _ _ Hm) I) as (b' & E & _).
    simpl in E. unfold mbind in E. unfold view. destruct (bin_contents (kcoords K c) (me_bin m)); try discriminate.
    injection E as _ ->. reflexivity.
Qed.

Lemma rect_field_safe : forall pts cells m data name p0 r, rect_mesh pts cells -> mesh_of (K := quad_kind ROps) pts cells m ->
  (List.length pts <= List.length data)%nat -> pf_new (F := scalar_field ROps) name m data 0%R = Ok p0 ->
  Forall2 (fun z x => x <> z) (bin_max (me_bin m)) [fst r; snd r] ->
  forall h m' p' q, field_history (m, p0) h (m', p') -> on_axes 2 q ->
    (exists s a, field_eval (K := quad_kind ROps) q r (m', p') = RRet s a) \/
    (exists s, field_eval (K := quad_kind ROps) q r (m', p') = RThrow s DomainError).
Proof.
  intros pts cells m data name p0 r Hr Hof Hd Hp0 Hc h m' p' q Hh Hq.
  destruct (rect_field_new pts cells m data name Hr Hof Hd) as (p1 & Hp1 & Hon).
  assert (p1 = p0) by congruence. subst p1.
  pose proof (quad_field_safe ROps (scalar_field ROps) m data 0%R p0 h m' p' q r Hon Hh Hq) as S.
  destruct (rect_reads _ _ Hr) as (m0 & elems & ax & H1 & Hm & H3). rewrite <- (H3 _ Hof) in Hm. clear H3 H1 m0.
  destruct (rect_mesh_facts _ _ Hr) as (_ & _ & Hz & _).
  destruct (meshed_view_safe (quad_kind ROps) q_dim q_coords _ _ _ _ _ _ m r Hm Hz Hc) as [(l & El)|El]; rewrite El in S; auto.
Qed.

Lemma box_field_safe : forall pts cells m data name p0 r, box_mesh pts cells -> mesh_of (K := hex_kind ROps) pts cells m ->
  (List.length pts <= List.length data)%nat -> pf_new (F := scalar_field ROps) name m data 0%R = Ok p0 ->
  Forall2 (fun z x => x <> z) (bin_max (me_bin m)) [cx r; cy r; cz r] ->
  forall h m' p' q, field_history (m, p0) h (m', p') -> on_axes 3 q ->
    (exists s a, field_eval (K := hex_kind ROps) q r (m', p') = RRet s a) \/
    (exists s, field_eval (K := hex_kind ROps) q r (m', p') = RThrow s DomainError).
Proof.
  intros pts cells m data name p0 r Hr Hof Hd Hp0 Hc h m' p' q Hh Hq.
  destruct (box_field_new pts cells m data name Hr Hof Hd) as (p1 & Hp1 & Hon).
  assert (p1 = p0) by congruence. subst p1.
  pose proof (hex_field_safe ROps (scalar_field ROps) m data 0%R p0 h m' p' q r Hon Hh Hq) as S.
  destruct (box_reads _ _ Hr) as (m0 & elems & ax & H1 & Hm & H3). rewrite <- (H3 _ Hof) in Hm. clear H3 H1 m0.
  destruct (box_mesh_facts _ _ Hr) as (_ & _ & Hz & _).
  destruct (meshed_view_safe (hex_kind ROps) x_dim x_coords _ _ _ _ _ _ m r Hm Hz Hc) as [(l & El)|El]; rewrite El in S; auto.
Qed.

(** ** C21 *)

Lemma quad_deterministic : forall (O : NumOps) (F : FieldOps O) (m0 : mesh O (quad_kind O)) (data : list (ft F)) zero p0 c q,
  field_on m0 data zero p0 -> claimed m0 c -> on_axes 2 q ->
  exists a, forall h m p, field_history (m0, p0) h (m, p) -> exists s, field_eval q c (m, p) = RRet s a.
Proof. intros O F m0 data zero p0 c q. exact (field_deterministic (K := quad_kind O) m0 data zero p0 c q (quad_answering O)). Qed.

Lemma hex_deterministic : forall (O : NumOps) (F : FieldOps O) (m0 : mesh O (hex_kind O)) (data : list (ft F)) zero p0 c q,
  field_on m0 data zero p0 -> claimed m0 c -> on_axes 3 q ->
  exists a, forall h m p, field_history (m0, p0) h (m, p) -> exists s, field_eval q c (m, p) = RRet s a.
Proof. intros O F m0 data zero p0 c q. exact (field_deterministic (K := hex_kind O) m0 data zero p0 c q (hex_answering O)). Qed.

Lemma rect_deterministic : forall pts cells m data name p0 r q, rect_mesh pts cells -> mesh_of (K := quad_kind ROps) pts cells m ->
  (List.length pts <= List.length data)%nat -> pf_new (F := scalar_field ROps) name m data 0%R = Ok p0 ->
  in_mesh2 pts cells r -> on_axes 2 q ->
  exists a : R, forall h m' p', field_history (m, p0) h (m', p') -> exists s, field_eval (K := quad_kind ROps) q r (m', p') = RRet s a.
Proof.
  intros pts cells m data name p0 r q Hr Hof Hd Hp0 Hin Hq.
  destruct (rect_field pts cells m data name p0 r Hr Hof Hd Hp0 Hin) as (cell & lo & hh & v & _ & _ & _ & _ & Hev).
  destruct (Hev [] m p0 (FieldNone _) q Hq) as (s0 & a & _ & Ha). exists a. intros h m' p' Hh.
  destruct (Hev h m' p' Hh q Hq) as (s & a' & Es & Ha'). exists s. refine (eq_trans Es _). f_equal. eapply quantity2_unique; eauto.
Qed.

Lemma box_deterministic : forall pts cells m data name p0 r q, box_mesh pts cells -> mesh_of (K := hex_kind ROps) pts cells m ->
  (List.length pts <= List.length data)%nat -> pf_new (F := scalar_field ROps) name m data 0%R = Ok p0 ->
  in_mesh3 pts cells r -> on_axes 3 q ->
  exists a : R, forall h m' p', field_history (m, p0) h (m', p') -> exists s, field_eval (K := hex_kind ROps) q r (m', p') = RRet s a.
Proof.
  intros pts cells m data name p0 r q Hr Hof Hd Hp0 Hin Hq.
  destruct (box_field pts cells m data name p0 r Hr Hof Hd Hp0 Hin) as (j & cell & lo & hh & v & _ & _ & _ & _ & _ & _ & Hev).
  eexists. intros h m' p' Hh. exact (Hev h m' p' Hh q Hq).
Qed.

(** ** C23 *)

Section Stored.
Context {O : NumOps} {K : kind O} {F : FieldOps O}.

Lemma stored_latest : forall (m0 : mesh O K) (data : list (ft F)) zero p0 h m p, answering (K := K) -> field_on m0 data zero p0 ->
  field_history (m0, p0) h (m, p) ->
  forall q, field_stored p q = match latest h q with Some a => Ok a | None => field_stored p0 q end.
Proof.
  intros m0 data zero p0 h m p Ha Hon Hh. destruct (field_on_ok _ _ _ _ Ha Hon) as [Hm Hf].
  eapply history_stored; eauto.
Qed.

Lemma new_stored : forall name (m0 : mesh O K) (data : list (ft F)) zero p0, pf_new name m0 data zero = Ok p0 ->
  field_stored p0 QVal = UB UBUninit /\
  (forall i, 0 <= i < Z.of_nat (kdim K) -> field_stored p0 (QGrad i) = Ok (ft_dflt F)) /\
  (forall i j, 0 <= i < Z.of_nat (kdim K) -> 0 <= j < Z.of_nat (kdim K) -> field_stored p0 (QHess i j) = Ok (ft_dflt F)).
Proof.
  intros name m0 data zero p0 H. unfold pf_new in H. apply obind_ok in H. destruct H as (mx & _ & H). injection H as <-.
  assert (R : forall (A : Type) (d : A) n i, 0 <= i < Z.of_nat n -> vget (repeat d n) i = Ok d).
  { intros A d n i Hi. destruct (proj2 (vget_ok_iff _ (repeat d n) i)) as (x & Hx); [rewrite repeat_length; lia|].
    rewrite Hx. f_equal. apply vget_in in Hx. apply repeat_spec in Hx. auto. }
  split; [reflexivity|]. split.
  - intros i Hi. simpl. unfold pf_get_grad. simpl. apply R; auto.
  - intros i j Hi Hj. simpl. unfold pf_get_hess. simpl. rewrite R by auto. simpl. apply R; auto.
Qed.

Lemma eval_refreshes : forall (m0 : mesh O K) (data : list (ft F)) zero p0 h m p c, answering (K := K) -> field_on m0 data zero p0 ->
  field_history (m0, p0) h (m, p) ->
  match view (me_bin m0) (kcoords K c) with
  | Ok _ => exists m' p', pf_eval c (m, p) = RRet (m', p') tt /\ forall q,
      match q with
      | QVal => exists a, res_outcome (pf_call c (m, p)) = Ok a /\ pf_get p' = Ok a
      | _ => field_stored p' q = field_stored p q
      end
  | Throw e => exists m', pf_eval c (m, p) = RThrow (m', p) e
  | Exit => pf_eval c (m, p) = RExit
  | UB r => pf_eval c (m, p) = RUB r
  | NoFuel => pf_eval c (m, p) = RNoFuel
  end.
Proof.
  intros m0 data zero p0 h m p c Ha Hon Hh.
  assert (E : pf_eval c (m, p) = eval_all [QVal] c (m, p)).
  { unfold pf_eval. cbn. unfold mbind, mret. destruct (pf_call c (m, p)); reflexivity. }
  pose proof (eval_all_refreshes m0 data zero p0 h m p c [QVal] Ha Hon Hh ltac:(discriminate) ltac:(apply Forall_cons; [exact I|apply Forall_nil])) as S.
  rewrite E. destruct (view (me_bin m0) (kcoords K c)); auto.
  destruct S as (m' & p' & S0 & S). exists m', p'. split; [exact S0|].
  intros q. specialize (S q). destruct S as [S1 S2]. destruct q as [|i|i j]; [apply S1; left; reflexivity|apply S2; intros [X|[]]; discriminate..].
Qed.

Lemma eval_grad_refreshes : forall (m0 : mesh O K) (data : list (ft F)) zero p0 h m p c, answering (K := K) -> field_on m0 data zero p0 ->
  field_history (m0, p0) h (m, p) ->
  match view (me_bin m0) (kcoords K c) with
  | Ok _ => exists m' p', pf_eval_grad c (m, p) = RRet (m', p') tt /\ forall q,
      match q with
      | QGrad i => 0 <= i < Z.of_nat (kdim K) -> exists a, res_outcome (pf_call_grad c i (m, p)) = Ok a /\ pf_get_grad p' i = Ok a
      | _ => field_stored p' q = field_stored p q
      end
  | Throw e => exists m', pf_eval_grad c (m, p) = RThrow (m', p) e
  | Exit => pf_eval_grad c (m, p) = RExit
  | UB r => pf_eval_grad c (m, p) = RUB r
  | NoFuel => pf_eval_grad c (m, p) = RNoFuel
  end.
Proof.
  intros m0 data zero p0 h m p c Ha Hon Hh. pose proof Ha as [Hd _].
  assert (Hne : grads (K := K) <> []) by (unfold grads, dims; destruct (kdim K); [lia|discriminate]).
  assert (Hqs : Forall (on_axes (kdim K)) (grads (K := K))).
  { apply Forall_forall. intros q Hq. apply in_grads in Hq. destruct Hq as (i & -> & Hi). exact Hi. }
  pose proof (eval_all_refreshes m0 data zero p0 h m p c (grads (K := K)) Ha Hon Hh Hne Hqs) as S.
  rewrite eval_grad_all. change (map QGrad (dims (K := K))) with (grads (K := K)).
  destruct (view (me_bin m0) (kcoords K c)); auto.
  destruct S as (m' & p' & S0 & S). exists m', p'. split; [exact S0|].
  intros q. specialize (S q). destruct S as [S1 S2]. destruct q as [|i|i j].
  - apply S2. intros Hin. apply in_grads in Hin. destruct Hin as (i & E & _). discriminate.
  - intros Hi. apply S1. apply in_grads. eauto.
  - apply S2. intros Hin. apply in_grads in Hin. destruct Hin as (i' & E & _). discriminate.
Qed.

Lemma eval_hess_refreshes : forall (m0 : mesh O K) (data : list (ft F)) zero p0 h m p c, answering (K := K) -> field_on m0 data zero p0 ->
  field_history (m0, p0) h (m, p) ->
  match view (me_bin m0) (kcoords K c) with
  | Ok _ => exists m' p', pf_eval_hess c (m, p) = RRet (m', p') tt /\ forall q,
      match q with
      | QHess i j => 0 <= i < Z.of_nat (kdim K) -> 0 <= j < Z.of_nat (kdim K) ->
          exists a, res_outcome (pf_call_hess c i j (m, p)) = Ok a /\ pf_get_hess p' i j = Ok a
      | _ => field_stored p' q = field_stored p q
      end
  | Throw e => exists m', pf_eval_hess c (m, p) = RThrow (m', p) e
  | Exit => pf_eval_hess c (m, p) = RExit
  | UB r => pf_eval_hess c (m, p) = RUB r
  | NoFuel => pf_eval_hess c (m, p) = RNoFuel
  end.
Proof.
  intros m0 data zero p0 h m p c Ha Hon Hh. pose proof Ha as [Hd _].
  assert (Hne : hesses (K := K) <> []) by (unfold hesses, dims; destruct (kdim K); [lia|discriminate]).
  assert (Hqs : Forall (on_axes (kdim K)) (hesses (K := K))).
  { apply Forall_forall. intros q Hq. apply in_hesses in Hq. destruct Hq as (i & j & -> & Hi & Hj). split; auto. }
  pose proof (eval_all_refreshes m0 data zero p0 h m p c (hesses (K := K)) Ha Hon Hh Hne Hqs) as S.
  rewrite eval_hess_all. change (flat_map (fun i => map (QHess i) (dims (K:=K))) (dims (K:=K))) with (hesses (K := K)).
  destruct (view (me_bin m0) (kcoords K c)); auto.
  destruct S as (m' & p' & S0 & S). exists m', p'. split; [exact S0|].
  intros q. specialize (S q). destruct S as [S1 S2]. destruct q as [|i|i j].
  - apply S2. intros Hin. apply in_hesses in Hin. destruct Hin as (i & j & E & _). discriminate.
  - apply S2. intros Hin. apply in_hesses in Hin. destruct Hin as (i' & j & E & _). discriminate.
  - intros Hi Hj. apply S1. apply in_hesses. eauto 6.
Qed.

(** A single call that throws leaves the stored results alone too. *)
Lemma throw_keeps_stored : forall (m0 : mesh O K) (data : list (ft F)) zero p0 h m p q c m' p' e, answering (K := K) ->
  field_on m0 data zero p0 -> field_history (m0, p0) h (m, p) -> on_axes (kdim K) q ->
  field_eval q c (m, p) = RThrow (m', p') e -> forall q', field_stored p' q' = field_stored p q'.
Proof.
  intros m0 data zero p0 h m p q c m' p' e Ha Hon Hh Hq E q'.
  rewrite (stored_latest _ _ _ _ _ _ _ Ha Hon Hh).
  rewrite (stored_latest _ _ _ _ _ _ _ Ha Hon (FieldThrow _ _ _ _ _ _ _ Hh Hq E)).
  unfold latest. rewrite fold_left_app. reflexivity.
Qed.

End Stored.

Lemma quad_stored_latest : forall (O : NumOps) (F : FieldOps O) (m0 : mesh O (quad_kind O)) (data : list (ft F)) zero p0 h m p, field_on m0 data zero p0 -> field_history (m0, p0) h (m, p) ->
  forall q, field_stored p q = match latest h q with Some a => Ok a | None => field_stored p0 q end.
Proof. intros O F m0 data zero p0 h m p. exact (stored_latest (K := quad_kind O) m0 data zero p0 h m p (quad_answering O)). Qed.

Lemma quad_throw_keeps : forall (O : NumOps) (F : FieldOps O) (m0 : mesh O (quad_kind O)) (data : list (ft F)) zero p0 h m p q c m' p' e, field_on m0 data zero p0 -> field_history (m0, p0) h (m, p) ->
  on_axes 2 q -> field_eval q c (m, p) = RThrow (m', p') e -> forall q', field_stored p' q' = field_stored p q'.
Proof. intros O F m0 data zero p0 h m p q c m' p' e. exact (throw_keeps_stored (K := quad_kind O) m0 data zero p0 h m p q c m' p' e (quad_answering O)). Qed.

Lemma quad_eval_refreshes : forall (O : NumOps) (F : FieldOps O) (m0 : mesh O (quad_kind O)) (data : list (ft F)) zero p0 h m p c, field_on m0 data zero p0 -> field_history (m0, p0) h (m, p) ->
  match view (me_bin m0) (kcoords (quad_kind O) c) with
  | Ok _ => exists m' p', pf_eval c (m, p) = RRet (m', p') tt /\ forall q,
      match q with
      | QVal => exists a, res_outcome (pf_call c (m, p)) = Ok a /\ pf_get p' = Ok a
      | _ => field_stored p' q = field_stored p q
      end
  | Throw e => exists m', pf_eval c (m, p) = RThrow (m', p) e
  | Exit => pf_eval c (m, p) = RExit
  | UB r => pf_eval c (m, p) = RUB r
  | NoFuel => pf_eval c (m, p) = RNoFuel
  end.
Proof. intros O F m0 data zero p0 h m p c. exact (eval_refreshes (K := quad_kind O) m0 data zero p0 h m p c (quad_answering O)). Qed.

Lemma quad_eval_grad_refreshes : forall (O : NumOps) (F : FieldOps O) (m0 : mesh O (quad_kind O)) (data : list (ft F)) zero p0 h m p c, field_on m0 data zero p0 -> field_history (m0, p0) h (m, p) ->
  match view (me_bin m0) (kcoords (quad_kind O) c) with
  | Ok _ => exists m' p', pf_eval_grad c (m, p) = RRet (m', p') tt /\ forall q,
      match q with
      | QGrad i => 0 <= i < 2 -> exists a, res_outcome (pf_call_grad c i (m, p)) = Ok a /\ pf_get_grad p' i = Ok a
      | _ => field_stored p' q = field_stored p q
      end
  | Throw e => exists m', pf_eval_grad c (m, p) = RThrow (m', p) e
  | Exit => pf_eval_grad c (m, p) = RExit
  | UB r => pf_eval_grad c (m, p) = RUB r
  | NoFuel => pf_eval_grad c (m, p) = RNoFuel
  end.
Proof. intros O F m0 data zero p0 h m p c. exact (eval_grad_refreshes (K := quad_kind O) m0 data zero p0 h m p c (quad_answering O)). Qed.

Lemma quad_eval_hess_refreshes : forall (O : NumOps) (F : FieldOps O) (m0 : mesh O (quad_kind O)) (data : list (ft F)) zero p0 h m p c, field_on m0 data zero p0 -> field_history (m0, p0) h (m, p) ->
  match view (me_bin m0) (kcoords (quad_kind O) c) with
  | Ok _ => exists m' p', pf_eval_hess c (m, p) = RRet (m', p') tt /\ forall q,
      match q with
      | QHess i j => 0 <= i < 2 -> 0 <= j < 2 ->
          exists a, res_outcome (pf_call_hess c i j (m, p)) = Ok a /\ pf_get_hess p' i j = Ok a
      | _ => field_stored p' q = field_stored p q
      end
  | Throw e => exists m', pf_eval_hess c (m, p) = RThrow (m', p) e
  | Exit => pf_eval_hess c (m, p) = RExit
  | UB r => pf_eval_hess c (m, p) = RUB r
  | NoFuel => pf_eval_hess c (m, p) = RNoFuel
  end.
Proof. intros O F m0 data zero p0 h m p c. exact (eval_hess_refreshes (K := quad_kind O) m0 data zero p0 h m p c (quad_answering O)). Qed.

Lemma hex_stored_latest : forall (O : NumOps) (F : FieldOps O) (m0 : mesh O (hex_kind O)) (data : list (ft F)) zero p0 h m p, field_on m0 data zero p0 -> field_history (m0, p0) h (m, p) ->
  forall q, field_stored p q = match latest h q with Some a => Ok a | None => field_stored p0 q end.
Proof. intros O F m0 data zero p0 h m p. exact (stored_latest (K := hex_kind O) m0 data zero p0 h m p (hex_answering O)). Qed.

Lemma hex_throw_keeps : forall (O : NumOps) (F : FieldOps O) (m0 : mesh O (hex_kind O)) (data : list (ft F)) zero p0 h m p q c m' p' e, field_on m0 data zero p0 -> field_history (m0, p0) h (m, p) ->
  on_axes 3 q -> field_eval q c (m, p) = RThrow (m', p') e -> forall q', field_stored p' q' = field_stored p q'.
Proof. intros O F m0 data zero p0 h m p q c m' p' e. exact (throw_keeps_stored (K := hex_kind O) m0 data zero p0 h m p q c m' p' e (hex_answering O)). Qed.

Lemma hex_eval_refreshes : forall (O : NumOps) (F : FieldOps O) (m0 : mesh O (hex_kind O)) (data : list (ft F)) zero p0 h m p c, field_on m0 data zero p0 -> field_history (m0, p0) h (m, p) ->
  match view (me_bin m0) (kcoords (hex_kind O) c) with
  | Ok _ => exists m' p', pf_eval c (m, p) = RRet (m', p') tt /\ forall q,
      match q with
      | QVal => exists a, res_outcome (pf_call c (m, p)) = Ok a /\ pf_get p' = Ok a
      | _ => field_stored p' q = field_stored p q
      end
  | Throw e => exists m', pf_eval c (m, p) = RThrow (m', p) e
  | Exit => pf_eval c (m, p) = RExit
  | UB r => pf_eval c (m, p) = RUB r
  | NoFuel => pf_eval c (m, p) = RNoFuel
  end.
Proof. intros O F m0 data zero p0 h m p c. exact (eval_refreshes (K := hex_kind O) m0 data zero p0 h m p c (hex_answering O)). Qed.

Lemma hex_eval_grad_refreshes : forall (O : NumOps) (F : FieldOps O) (m0 : mesh O (hex_kind O)) (data : list (ft F)) zero p0 h m p c, field_on m0 data zero p0 -> field_history (m0, p0) h (m, p) ->
  match view (me_bin m0) (kcoords (hex_kind O) c) with
  | Ok _ => exists m' p', pf_eval_grad c (m, p) = RRet (m', p') tt /\ forall q,
      match q with
      | QGrad i => 0 <= i < 3 -> exists a, res_outcome (pf_call_grad c i (m, p)) = Ok a /\ pf_get_grad p' i = Ok a
      | _ => field_stored p' q = field_stored p q
      end
  | Throw e => exists m', pf_eval_grad c (m, p) = RThrow (m', p) e
  | Exit => pf_eval_grad c (m, p) = RExit
  | UB r => pf_eval_grad c (m, p) = RUB r
  | NoFuel => pf_eval_grad c (m, p) = RNoFuel
  end.
Proof. intros O F m0 data zero p0 h m p c. exact (eval_grad_refreshes (K := hex_kind O) m0 data zero p0 h m p c (hex_answering O)). Qed.

Lemma hex_eval_hess_refreshes : forall (O : NumOps) (F : FieldOps O) (m0 : mesh O (hex_kind O)) (data : list (ft F)) zero p0 h m p c, field_on m0 data zero p0 -> field_history (m0, p0) h (m, p) ->
  match view (me_bin m0) (kcoords (hex_kind O) c) with
  | Ok _ => exists m' p', pf_eval_hess c (m, p) = RRet (m', p') tt /\ forall q,
      match q with
      | QHess i j => 0 <= i < 3 -> 0 <= j < 3 ->
          exists a, res_outcome (pf_call_hess c i j (m, p)) = Ok a /\ pf_get_hess p' i j = Ok a
      | _ => field_stored p' q = field_stored p q
      end
  | Throw e => exists m', pf_eval_hess c (m, p) = RThrow (m', p) e
  | Exit => pf_eval_hess c (m, p) = RExit
  | UB r => pf_eval_hess c (m, p) = RUB r
  | NoFuel => pf_eval_hess c (m, p) = RNoFuel
  end.
Proof. intros O F m0 data zero p0 h m p c. exact (eval_hess_refreshes (K := hex_kind O) m0 data zero p0 h m p c (hex_answering O)). Qed.

(** ** Meshes of doubles *)

Definition run_mesh {O : NumOps} (K : kind O) (pts : list (kpoint K)) (cells : list (list Z)) : option (mesh O K) :=
  match mesh_points pts mesh_new with
  | RRet m1 _ => match mesh_cells cells m1 with RRet m _ => Some m | _ => None end
  | _ => None
  end.

Lemma run_mesh_of : forall (O : NumOps) (K : kind O) pts cells m, run_mesh K pts cells = Some m -> mesh_of pts cells m.
Proof.
  intros O K pts cells m H. unfold run_mesh in H. destruct (mesh_points pts mesh_new) as [m1 []| | | |] eqn:E1; try discriminate.
  destruct (mesh_cells cells m1) as [m2 []| | | |] eqn:E2; try discriminate. injection H as ->. exists m1. auto.
Qed.

Local Notation d := f64_make.
Definition f_unit : list (f64 * f64) := [(d 0 0, d 0 0); (d 1 0, d 0 0); (d 1 0, d 1 0); (d 0 0, d 1 0)].
Definition f_cells : list (list Z) := [[0; 1; 2; 3]].
Definition f_data : list f64 := [d 8 0; d 1 0; d 2 0; d 3 0].

(** Boolean tests, so that only booleans are ever computed. *)
Section Tests.
Context (O : NumOps) (K : kind O) (pts : list (kpoint K)) (cells : list (list Z)) (data : list (num O)).
Let F := scalar_field O.

Definition with_field (k : mesh O K -> pfield F -> bool) : bool :=
  match run_mesh K pts cells with
  | Some m => match pf_new (F := F) "f" m data (nofZ O 0) with Ok p0 => k m p0 | _ => false end
  | None => false
  end.

Lemma with_field_spec : forall k, with_field k = true -> exists m p0, mesh_of pts cells m /\
  pf_new (F := F) "f" m data (nofZ O 0) = Ok p0 /\ k m p0 = true.
Proof.
  intros k H. unfold with_field in H. destruct (run_mesh K pts cells) as [m|] eqn:Em; [|discriminate H].
  destruct (pf_new (F := F) "f" m data (nofZ O 0)) as [p0| | | |] eqn:Ep; try discriminate H.
  exists m, p0. split; [apply run_mesh_of; auto|]. auto.
Qed.

Definition differs (c c0 : kpoint K) (m : mesh O K) (p0 : pfield F) : bool :=
  match field_eval (F := F) QVal c (m, p0), field_eval (F := F) QVal c0 (m, p0) with
  | RRet _ a1, RRet s1 _ =>
      match field_eval (F := F) QVal c s1 with
      | RRet _ a2 => negb (neqb O a1 a2)
      | _ => false
      end
  | _, _ => false
  end.

Lemma differs_spec : forall c c0 m p0, differs c c0 m p0 = true -> exists hist m1 p1 s1 a1 s2 a2,
  field_history (F := F) (m, p0) hist (m1, p1) /\ field_eval (F := F) QVal c (m, p0) = RRet s1 a1 /\
  field_eval (F := F) QVal c (m1, p1) = RRet s2 a2 /\ neqb O a1 a2 = false.
Proof.
  intros c c0 m p0 H. unfold differs in H.
  destruct (field_eval (F := F) QVal c (m, p0)) as [s1 a1| | | |] eqn:E1; try discriminate H.
  destruct (field_eval (F := F) QVal c0 (m, p0)) as [[m1 p1] b1| | | |] eqn:E2; try discriminate H.
  destruct (field_eval (F := F) QVal c (m1, p1)) as [s2 a2| | | |] eqn:E3; try discriminate H.
  exists [(QVal, c0, Some b1)], m1, p1, s1, a1, s2, a2. split.
  { apply (FieldRet (F := F) (m, p0) [] (m, p0) QVal c0 b1 (m1, p1)); [constructor|exact I|exact E2]. }
  split; [auto|]. split; [exact E3|]. apply negb_true_iff. exact H.
Qed.

Definition undefined_at (c : kpoint K) (m : mesh O K) (p0 : pfield F) : bool :=
  match field_eval (F := F) QVal c (m, p0) with RUB _ => true | _ => false end.

Lemma undefined_spec : forall c m p0, undefined_at c m p0 = true -> exists r, field_eval (F := F) QVal c (m, p0) = RUB r.
Proof. intros c m p0 H. unfold undefined_at in H. destruct (field_eval _ _ _); try discriminate H. eauto. Qed.

Definition ready (m : mesh O K) (p0 : pfield F) : bool :=
  Nat.leb (List.length (me_node m)) (List.length data) &&
  match mesh_max_bin_size m with Ok mx => mx <=? int_max | _ => false end.

Definition claims (c : kpoint K) (m : mesh O K) : bool :=
  match view (me_bin m) (kcoords K c) with Ok l => existsb (fun it => it_range it c) l | _ => false end.

Lemma ready_spec : forall m p0, mesh_of pts cells m -> pf_new (F := F) "f" m data (nofZ O 0) = Ok p0 -> ready m p0 = true ->
  field_on (F := F) m data (nofZ O 0) p0.
Proof.
  intros m p0 Hm Hp H. unfold ready in H. apply andb_true_iff in H. destruct H as [H1 H2].
  split; [eapply mesh_of_read; eauto|]. split; [apply Nat.leb_le; exact H1|]. split; [|eauto].
  destruct (mesh_max_bin_size m) as [mx| | | |]; try discriminate H2. exists mx. split; auto. apply Z.leb_le; auto.
Qed.

Lemma claims_spec : forall c m, claims c m = true -> claimed m c.
Proof.
  intros c m H. unfold claims in H. destruct (view (me_bin m) (kcoords K c)) as [l| | | |] eqn:E; try discriminate H.
  apply existsb_exists in H. destruct H as (it & H1 & H2). exists l, it. auto.
Qed.

Definition returns_throws (c c' : kpoint K) (m : mesh O K) (p0 : pfield F) : bool :=
  match field_eval (F := F) QVal c (m, p0) with
  | RRet s _ => match field_eval (F := F) QVal c' s with RThrow _ _ => true | _ => false end
  | _ => false
  end.

Lemma returns_throws_spec : forall c c' m p0, answering (K := K) -> field_on (F := F) m data (nofZ O 0) p0 -> returns_throws c c' m p0 = true ->
  exists h m' p' a, field_history (F := F) (m, p0) h (m', p') /\ List.length h = 2%nat /\ latest (F := F) h QVal = Some a /\
    field_stored (F := F) p' QVal = Ok a.
Proof.
  intros c c' m p0 Ha Hon H. unfold returns_throws in H.
  destruct (field_eval (F := F) QVal c (m, p0)) as [[m1 p1] a| | | |] eqn:E1; try discriminate H.
  destruct (field_eval (F := F) QVal c' (m1, p1)) as [|[m2 p2] e| | |] eqn:E2; try discriminate H.
  assert (Hh : field_history (F := F) (m, p0) (([] ++ [(QVal, c, Some a)]) ++ [(QVal, c', None)]) (m2, p2)).
  { eapply FieldThrow; [|exact I|exact E2]. eapply FieldRet; [|exact I|exact E1]. constructor. }
  exists (([] ++ [(QVal, c, Some a)]) ++ [(QVal, c', None)]), m2, p2, a. split; [exact Hh|]. split; [reflexivity|].
  split; [reflexivity|]. rewrite (stored_latest _ _ _ _ _ _ _ Ha Hon Hh). reflexivity.
Qed.

End Tests.

(** C21: outside the mesh, within one bin, the result depends on the history. *)
Lemma outside_refuted :
  exists (pts : list (f64 * f64)) cells (m : mesh FOps (quad_kind FOps)) (data : list f64) p0 (c : f64 * f64) hist m1 p1 s1 a1 s2 a2,
    mesh_of (K := quad_kind FOps) pts cells m /\ List.length data = List.length pts /\
    pf_new (F := scalar_field FOps) "f" m data (nofZ FOps 0) = Ok p0 /\ field_history (m, p0) hist (m1, p1) /\
    field_eval (K := quad_kind FOps) QVal c (m, p0) = RRet s1 a1 /\
    field_eval (K := quad_kind FOps) QVal c (m1, p1) = RRet s2 a2 /\ neqb FOps a1 a2 = false.
Proof.
  assert (H : with_field FOps (quad_kind FOps) f_unit f_cells f_data
                (differs FOps (quad_kind FOps) (d 5 (-2), d 1 (-1)) (d 1 0, d 0 0)) = true) by (vm_compute; reflexivity).
  apply with_field_spec in H. destruct H as (m & p0 & Hm & Hp & H). apply differs_spec in H.
  destruct H as (hist & m1 & p1 & s1 & a1 & s2 & a2 & H1 & H2 & H3 & H4).
  exists f_unit, f_cells, m, f_data, p0, (d 5 (-2), d 1 (-1)), hist, m1, p1, s1, a1, s2, a2.
  split; [exact Hm|]. split; [reflexivity|]. split; [exact Hp|]. split; [exact H1|]. split; [exact H2|]. split; [exact H3|exact H4].
Qed.

(** C24: on the upper limit of the search grid the call is undefined. *)
Lemma limit_refuted :
  exists (pts : list (f64 * f64)) cells (m : mesh FOps (quad_kind FOps)) (data : list f64) p0 (c : f64 * f64) r,
    mesh_of (K := quad_kind FOps) pts cells m /\ List.length data = List.length pts /\
    pf_new (F := scalar_field FOps) "f" m data (nofZ FOps 0) = Ok p0 /\
    field_eval (K := quad_kind FOps) QVal c (m, p0) = RUB r.
Proof.
  assert (H : with_field FOps (quad_kind FOps) f_unit f_cells f_data
                (undefined_at FOps (quad_kind FOps) (d 3 (-1), d 1 (-1))) = true) by (vm_compute; reflexivity).
  apply with_field_spec in H. destruct H as (m & p0 & Hm & Hp & H). apply undefined_spec in H. destruct H as (r & H).
  exists f_unit, f_cells, m, f_data, p0, (d 3 (-1), d 1 (-1)), r.
  split; [exact Hm|]. split; [reflexivity|]. split; [exact Hp|exact H].
Qed.

(** Examples beside C21 and C23. *)
Lemma f_claimed : exists (m : mesh FOps (quad_kind FOps)) p0,
  field_on (F := scalar_field FOps) m f_data (nofZ FOps 0) p0 /\ claimed m (d 1 (-2), d 1 (-1)).
Proof.
  assert (H : with_field FOps (quad_kind FOps) f_unit f_cells f_data (fun m p0 =>
                ready FOps (quad_kind FOps) f_data m p0 && claims FOps (quad_kind FOps) (d 1 (-2), d 1 (-1)) m) = true) by (vm_compute; reflexivity).
  apply with_field_spec in H. destruct H as (m & p0 & Hm & Hp & H). apply andb_true_iff in H. destruct H as [H1 H2].
  exists m, p0. split; [|apply claims_spec; exact H2]. exact (ready_spec FOps (quad_kind FOps) f_unit f_cells f_data m p0 Hm Hp H1).
Qed.

Lemma f_history : exists (m : mesh FOps (quad_kind FOps)) p0 h m' p' a,
  field_on (F := scalar_field FOps) m f_data (nofZ FOps 0) p0 /\ field_history (m, p0) h (m', p') /\
  List.length h = 2%nat /\ latest h QVal = Some a /\ field_stored p' QVal = Ok a.
Proof.
  assert (H : with_field FOps (quad_kind FOps) f_unit f_cells f_data (fun m p0 =>
                ready FOps (quad_kind FOps) f_data m p0 &&
                returns_throws FOps (quad_kind FOps) (d 1 (-2), d 1 (-1)) (d 9 0, d 9 0) m p0) = true) by (vm_compute; reflexivity).
  apply with_field_spec in H. destruct H as (m & p0 & Hm & Hp & H). apply andb_true_iff in H. destruct H as [H1 H2].
  pose proof (ready_spec FOps (quad_kind FOps) f_unit f_cells f_data m p0 Hm Hp H1) as Hon.
  destruct (returns_throws_spec FOps (quad_kind FOps) f_data _ _ m p0 (quad_answering FOps) Hon H2) as (h & m' & p' & a & R1 & R2 & R3 & R4).
  exists m, p0, h, m', p', a. auto.
Qed.
