(** Pointers to the fields of a body. *)
From Coq Require Import ZArith List String Bool Lia.
From Verif Require Import Model.Outcome Model.Wrapper Model.FieldPtr Spec.FieldPtr Proofs.OutcomeP Proofs.WrapperP.
Import ListNotations.

Section Sim.
Context {F B : Type} (name : F -> string) (grow : nat -> nat).
Local Notation block := (block F).

Lemma push_all : forall fs (h : heap block) p b, nth_error h p = Some (Some b) -> bk_room b = room_after grow (List.length (bk_fields b)) ->
  exists h' p', ofold (push_back grow) fs (h, p) = Ok (h', p') /\
    nth_error h' p' = Some (Some (mkBlock (bk_fields b ++ fs) (room_after grow (List.length (bk_fields b ++ fs))))) /\
    List.length h <= List.length h' /\ p' < List.length h' /\ (p' = p \/ List.length h <= p' /\ nth_error h' p = Some None) /\
    (forall q, q < List.length h -> q <> p -> nth_error h' q = nth_error h q) /\
    ((forall n, n < grow n) -> (p' = p <-> List.length (bk_fields b) + List.length fs <= room_after grow (List.length (bk_fields b)))).
Proof.
  assert (RG : (forall n, n < grow n) -> forall n, n <= room_after grow n).
  { intros G n. induction n as [|n IH]; [simpl; lia|]. cbn [room_after]. destruct (Nat.ltb_spec n (room_after grow n)); [lia|]. pose proof (G (room_after grow n)). lia. }
  induction fs as [|x fs IH]; intros h p b Hb Hr.
  - exists h, p. cbn [ofold]. rewrite app_nil_r. assert (p < List.length h) by (apply nth_error_Some; congruence). split; [reflexivity|]. split; [rewrite <- Hr; destruct b; exact Hb|]. split; [lia|]. split; [assumption|]. split; [left; reflexivity|]. split; [reflexivity|]. cbn [List.length]. intros G. split; [intros _|auto]. rewrite Nat.add_0_r. exact (RG G _).
  - assert (Lp : p < List.length h) by (apply nth_error_Some; congruence).
    assert (RS : room_after grow (List.length (bk_fields b ++ [x])) =
      if Nat.ltb (List.length (bk_fields b)) (bk_room b) then bk_room b else grow (bk_room b)).
    { rewrite app_length. cbn [List.length]. rewrite Nat.add_1_r. cbn [room_after]. now rewrite <- Hr. }
    cbn [ofold]. unfold push_back at 1. unfold h_read. rewrite Hb. cbn [obind].
    destruct (Nat.ltb_spec (List.length (bk_fields b)) (bk_room b)) as [L|L]; cbn [obind].
    + destruct (IH (lset h p (Some (mkBlock (bk_fields b ++ [x]) (bk_room b)))) p (mkBlock (bk_fields b ++ [x]) (bk_room b))) as (h' & p' & E & A & Ln & Lp' & C & D & G).
      { rewrite nth_error_lset_same; [reflexivity|exact Lp]. } { cbn [bk_room bk_fields]. now rewrite RS. }
      exists h', p'. cbn [bk_fields] in *. rewrite length_lset in *. rewrite <- app_assoc in A. split; [exact E|]. split; [exact A|]. split; [exact Ln|]. split; [exact Lp'|].
      split; [exact C|]. split.
      * intros q Hq Hn. rewrite D by assumption. apply nth_error_lset_other. auto.
      * intros HG. rewrite (G HG). rewrite RS, <- Hr. rewrite app_length. cbn [List.length]. lia.
    + unfold h_delete. rewrite Hb. cbn [obind].
      destruct (IH (h_new (mkBlock (bk_fields b ++ [x]) (grow (bk_room b))) (lset h p None)) (List.length (lset h p None)) (mkBlock (bk_fields b ++ [x]) (grow (bk_room b))))
        as (h' & p' & E & A & Ln & Lp' & C & D & G).
      { unfold h_new. rewrite nth_error_app2, Nat.sub_diag by lia. reflexivity. } { cbn [bk_room bk_fields]. now rewrite RS. }
      exists h', p'. cbn [bk_fields] in *. unfold h_new in *. rewrite <- app_assoc in A. split; [exact E|]. split; [exact A|]. clear A G.
      rewrite app_length, length_lset in *. cbn [List.length] in *. split; [lia|]. split; [exact Lp'|].
      assert (Np : nth_error h' p = Some None).
      { rewrite D by lia. rewrite nth_error_app1 by (rewrite length_lset; lia). apply nth_error_lset_same. exact Lp. }
      split; [right; split; [lia|exact Np]|]. split.
      * intros q Hq Hn. rewrite D by lia. rewrite nth_error_app1 by (rewrite length_lset; lia). apply nth_error_lset_other. auto.
      * intros HG. split; [intros ->; lia|]. intros HL. exfalso. rewrite <- Hr in HL. lia.
Qed.

Record sim (bl : list nat) (s : fstate F) (t : ideal F) : Prop := {
  sim_len : List.length bl = List.length (i_body t);
  sim_body : List.length (f_body s) = List.length (i_body t);
  sim_nodup : NoDup bl;
  sim_range : Forall (fun p => p < List.length (f_block s)) bl;
  sim_fields : forall a p, nth_error bl a = Some p ->
    match nth_error (i_body t) a with
    | Some (Some fs) => nth_error (f_body s) a = Some (Some p) /\ nth_error (f_block s) p = Some (Some (mkBlock fs (room_after grow (List.length fs))))
    | _ => nth_error (f_body s) a = Some None /\ nth_error (f_block s) p = Some None
    end;
  sim_bvar : f_bvar s = i_bvar t;
  sim_pvar : Forall2 (fun c v => match v with None => c = None | Some (a, i) => exists p, nth_error bl a = Some p /\ c = Some (p, i) end) (f_pvar s) (i_pvar t)
}.

Lemma sim_start : forall nb np, sim [] (f_start nb np) (mkI [] (repeat None nb) (repeat None np)).
Proof.
  intros nb np. constructor; cbn; auto; try constructor.
  - intros a p H. destruct a; discriminate.
  - induction np as [|np IH]; cbn; constructor; auto.
Qed.

Lemma sim_of_body : forall bl s t a, sim bl s t ->
  match of_body t a with
  | Ok fs => exists p, nth_error bl a = Some p /\ nth_error (f_body s) a = Some (Some p) /\ nth_error (f_block s) p = Some (Some (mkBlock fs (room_after grow (List.length fs))))
  | _ => h_read (f_body s) a = UB UBDangling /\ forall p, nth_error bl a = Some p -> h_read (f_block s) p = UB UBDangling
  end.
Proof.
  intros bl s t a H. unfold of_body. destruct (nth_error (i_body t) a) as [[fs|]|] eqn:E.
  - assert (L : a < List.length bl) by (rewrite (sim_len _ _ _ H); apply nth_error_Some; congruence). apply nth_error_Some in L.
    destruct (nth_error bl a) as [p|] eqn:Ep; [|congruence]. pose proof (sim_fields _ _ _ H a p Ep) as X. rewrite E in X. exists p. tauto.
  - unfold lacks, h_read. assert (L : a < List.length bl) by (rewrite (sim_len _ _ _ H); apply nth_error_Some; congruence). apply nth_error_Some in L.
    destruct (nth_error bl a) as [p|] eqn:Ep; [|congruence]. pose proof (sim_fields _ _ _ H a p Ep) as X. rewrite E in X. destruct X as [X Y]. rewrite X. split; [reflexivity|].
    intros q [= <-]. now rewrite Y.
  - unfold lacks, h_read. apply nth_error_None in E. assert (E' : nth_error (f_body s) a = None) by (apply nth_error_None; rewrite (sim_body _ _ _ H); exact E).
    rewrite E'. split; [reflexivity|]. intros p Hp. assert (a < List.length bl) by (apply nth_error_Some; congruence). rewrite (sim_len _ _ _ H) in *. lia.
Qed.

Lemma sim_var : forall bl s t j, sim bl s t ->
  match var (i_pvar t) j with
  | Ok None => f_var (f_pvar s) j = Ok None
  | Ok (Some (a, i)) => exists p, nth_error bl a = Some p /\ f_var (f_pvar s) j = Ok (Some (p, i))
  | _ => f_var (f_pvar s) j = UB UBDangling
  end.
Proof.
  intros bl s t j H. pose proof (sim_pvar _ _ _ H) as P. unfold var, f_var, lacks. clear H. revert j. induction P as [|c v cs vs Hc P IH]; intros [|j]; cbn; auto; [|apply IH].
  destruct v as [[a i]|]; [|now subst]. destruct Hc as (p & E & ->). exists p. auto.
Qed.

Lemma position_first : forall x fs, position name x fs = first_named name x fs.
Proof. intros x fs. induction fs as [|f fs IH]; cbn; [reflexivity|]. destruct (String.eqb (name f) x); [reflexivity|]. rewrite IH. destruct (first_named name x fs); reflexivity. Qed.

Lemma pvar_lset : forall bl (cs : list (option fptr)) (vs : list (option (nat * nat))) j c v, Forall2 (fun c v => match v with None => c = None | Some (a, i) => exists p, nth_error bl a = Some p /\ c = Some (p, i) end) cs vs ->
  (match v with None => c = None | Some (a, i) => exists p : nat, nth_error bl a = Some p /\ c = Some (p, i) end) ->
  Forall2 (fun c v => match v with None => c = None | Some (a, i) => exists p, nth_error bl a = Some p /\ c = Some (p, i) end) (lset cs j c) (lset vs j v).
Proof.
  intros bl cs vs j c v H Hv. revert j. induction H as [|c' v' cs vs Hc H IH]; intros [|j]; cbn; constructor; auto.
Qed.

Lemma sim_put : forall bl s t a p fs fs', sim bl s t -> nth_error bl a = Some p -> nth_error (i_body t) a = Some (Some fs) -> List.length fs' = List.length fs ->
  sim bl (mkF (f_body s) (lset (f_block s) p (Some (mkBlock fs' (room_after grow (List.length fs))))) (f_bvar s) (f_pvar s)) (mkI (lset (i_body t) a (Some fs')) (i_bvar t) (i_pvar t)).
Proof.
  intros bl s t a p fs fs' H Ep Ef Hl. pose proof (sim_fields _ _ _ H a p Ep) as X. rewrite Ef in X. destruct X as [X Y].
  assert (La : a < List.length (i_body t)) by (apply nth_error_Some; congruence). assert (Lp : p < List.length (f_block s)) by (apply nth_error_Some; congruence).
  constructor; cbn [f_body f_block f_bvar f_pvar i_body i_bvar i_pvar]; rewrite ?length_lset; try apply H.
  intros c q Hq. destruct (Nat.eq_dec c a) as [->|N].
  - rewrite nth_error_lset_same by exact La. rewrite Ep in Hq. injection Hq as <-. split; [exact X|]. rewrite nth_error_lset_same by exact Lp. now rewrite Hl.
  - rewrite nth_error_lset_other by auto. assert (Nq : q <> p).
    { intros ->. apply N. eapply NoDup_nth_error; [apply (sim_nodup _ _ _ H)| |congruence]. apply nth_error_Some. congruence. }
    rewrite nth_error_lset_other by auto. apply (sim_fields _ _ _ H c q Hq).
Qed.

Lemma sim_step : forall o bl s t, sim bl s t -> match o with FRead _ _ => False | _ => True end ->
  match istep (B := B) name o t with
  | Ok (t', r) => exists bl' s', fstep name grow o s = Ok (s', r) /\ sim bl' s' t'
  | Throw _ => False
  | Exit => fstep name grow o s = Exit
  | UB _ => exists u, fstep name grow o s = UB u
  | NoFuel => fstep name grow o s = NoFuel
  end.
Proof.
  intros o bl s t H Ho. destruct o as [k fs|k fs|j k x|j m|k|j]; [| destruct Ho | | | |]; cbn [istep fstep].
  - unfold f_new, mbind, mget, mlift, f_var, var, lacks. rewrite (sim_bvar _ _ _ H). destruct (nth_error (i_bvar t) k) as [v|] eqn:Ev; cbn [obind answered]; [|eauto].
    unfold f_read_body, h_read. cbn [f_body f_block f_bvar f_pvar]. unfold h_new at 1. rewrite nth_error_app2, Nat.sub_diag by lia. cbn [nth_error obind].
    destruct (push_all fs (h_new (mkBlock [] 0) (f_block s)) (List.length (f_block s)) (mkBlock [] 0)) as (h' & p' & E & A & Ln & Lp & C & D & _).
    { unfold h_new. rewrite nth_error_app2, Nat.sub_diag by lia. reflexivity. } { reflexivity. }
    rewrite E. cbn [obind fst snd bk_fields app] in *. exists (bl ++ [p']). eexists. split; [reflexivity|]. unfold h_new in *. rewrite app_length in *. cbn [List.length] in *.
    assert (P' : List.length (f_block s) <= p') by (destruct C as [->|[C _]]; lia).
    constructor; cbn [f_body f_block f_bvar f_pvar i_body i_bvar i_pvar]; rewrite ?length_lset, ?app_length; cbn [List.length].
    + now rewrite (sim_len _ _ _ H).
    + now rewrite (sim_body _ _ _ H).
    + apply NoDup_app_remove_r with (l' := []) || idtac. rewrite <- (rev_involutive (bl ++ [p'])), rev_app_distr. apply NoDup_rev. cbn. constructor; [|apply NoDup_rev, H].
      rewrite <- in_rev. intros Hi. pose proof (sim_range _ _ _ H) as R. rewrite Forall_forall in R. specialize (R _ Hi). lia.
    + apply Forall_app. split; [|constructor; [lia|constructor]]. eapply Forall_impl; [|apply (sim_range _ _ _ H)]. cbn. intros q Hq. lia.
    + intros a p Hp. destruct (Nat.lt_ge_cases a (List.length bl)) as [La|La].
      * rewrite nth_error_app1 in Hp by exact La. rewrite (sim_len _ _ _ H) in La. rewrite nth_error_app1 by exact La.
        rewrite nth_error_lset_other by (rewrite (sim_body _ _ _ H); lia). rewrite nth_error_app1 by (rewrite (sim_body _ _ _ H); exact La).
        pose proof (sim_range _ _ _ H) as R. rewrite Forall_forall in R. assert (Rp : p < List.length (f_block s)) by (apply R; eapply nth_error_In; eauto).
        rewrite D by lia. rewrite nth_error_app1 by exact Rp. apply (sim_fields _ _ _ H a p Hp).
      * assert (a = List.length bl) as ->.
        { assert (a < List.length (bl ++ [p'])) by (apply nth_error_Some; congruence). rewrite app_length in *. cbn in *. lia. }
        rewrite nth_error_app2, Nat.sub_diag in Hp by lia. injection Hp as <-. rewrite nth_error_app2, (sim_len _ _ _ H), Nat.sub_diag by (rewrite (sim_len _ _ _ H); lia). cbn [nth_error].
        rewrite <- (sim_body _ _ _ H). rewrite nth_error_lset_same by (rewrite app_length; cbn; lia). split; [reflexivity|exact A].
    + rewrite (sim_body _ _ _ H). reflexivity.
    + pose proof (sim_pvar _ _ _ H) as P. clear - P. induction P as [|c v cs vs Hc P IH]; constructor; auto. destruct v as [[a i]|]; [|exact Hc].
      destruct Hc as (p & Ep & ->). exists p. split; [|reflexivity]. rewrite nth_error_app1; [exact Ep|]. apply nth_error_Some. congruence.
  - unfold f_find, mbind, mget, mlift. pose proof (sim_var bl s t j H) as Vj. destruct (var (i_pvar t) j) as [v| | |u|] eqn:Ev; try (unfold var, lacks in Ev; destruct (nth_error (i_pvar t) j); discriminate).
    2:{ cbn [obind]. rewrite Vj. cbn. eauto. }
    assert (exists w, f_var (f_pvar s) j = Ok w) as (w & ->) by (destruct v as [[a i]|]; [destruct Vj as (p & _ & ->); eauto|eauto]). cbn [obind].
    unfold f_deref, f_var, var, need, lacks. rewrite (sim_bvar _ _ _ H). destruct (nth_error (i_bvar t) k) as [[a|]|] eqn:Ek; cbn [obind answered]; eauto.
    pose proof (sim_of_body bl s t a H) as X. unfold of_body in *. destruct (nth_error (i_body t) a) as [[fs|]|] eqn:Ea; unfold lacks in *; cbn [obind].
    2,3 : destruct X as [-> _]; cbn; eauto.
    destruct X as (p & Ep & Eb & Ef). unfold h_read. rewrite Eb, Ef. cbn [bk_fields]. rewrite (position_first x fs). destruct (first_named name x fs) as [i|].
    + cbn [answered mput]. exists bl. eexists. split; [reflexivity|].
      constructor; cbn [f_body f_block f_bvar f_pvar i_body i_bvar i_pvar]; try apply H; try reflexivity. apply pvar_lset; [apply H|]. exists p. auto.
    + cbn [answered]. exists bl, s. split; [reflexivity|exact H].
  - unfold f_call, mbind, mget, mlift, f_deref. pose proof (sim_var bl s t j H) as Vj. destruct (var (i_pvar t) j) as [v| | |u|] eqn:Ev; try (unfold var, lacks in Ev; destruct (nth_error (i_pvar t) j); discriminate).
    2:{ cbn [obind]. rewrite Vj. cbn. eauto. }
    destruct v as [[a i]|]; [|rewrite Vj; cbn; unfold lacks; eauto]. destruct Vj as (p & Ep & ->). cbn [obind need fst snd].
    pose proof (sim_of_body bl s t a H) as X. unfold of_body in *. destruct (nth_error (i_body t) a) as [[fs|]|] eqn:Ea; unfold lacks in *; cbn [obind].
    2,3 : destruct X as [_ X]; rewrite (X p Ep); cbn; eauto.
    destruct X as (p' & Ep' & Eb & Ef). rewrite Ep in Ep'. injection Ep' as <-. unfold h_read. rewrite Ef. cbn [bk_fields]. unfold need, lacks. destruct (nth_error fs i) as [f|] eqn:Ei; cbn [obind]; [|cbn; eauto].
    destruct (m f) as [y v|y e| |u|]; cbn [answered mput mret]; eauto.
    + exists bl. eexists. split; [reflexivity|]. apply (sim_put bl s t a p fs (lset fs i y) H Ep Ea). apply length_lset.
    + exists bl. eexists. split; [reflexivity|]. apply (sim_put bl s t a p fs (lset fs i y) H Ep Ea). apply length_lset.
  - unfold f_delete_body, mbind, mget, mlift, f_var, var, lacks. rewrite (sim_bvar _ _ _ H). destruct (nth_error (i_bvar t) k) as [v|] eqn:Ev; cbn [obind answered]; [|eauto].
    destruct v as [a|]; [|exists bl, s; auto]. pose proof (sim_of_body bl s t a H) as X. unfold of_body in *. destruct (nth_error (i_body t) a) as [[fs|]|] eqn:Ea; unfold lacks in *; cbn [obind].
    2,3 : destruct X as [-> _]; cbn; eauto.
    destruct X as (p & Ep & Eb & Ef). unfold h_read, h_delete. rewrite Eb, Ef. cbn [answered mput]. exists bl. eexists. split; [reflexivity|].
    assert (La : a < List.length (i_body t)) by (apply nth_error_Some; congruence). assert (Lp : p < List.length (f_block s)) by (apply nth_error_Some; congruence).
    constructor; cbn [f_body f_block f_bvar f_pvar i_body i_bvar i_pvar]; rewrite ?length_lset; try apply H; try reflexivity.
    intros c q Hq. destruct (Nat.eq_dec c a) as [->|N].
    + rewrite Ep in Hq. injection Hq as <-. rewrite !nth_error_lset_same; auto. rewrite (sim_body _ _ _ H). exact La.
    + assert (Nq : q <> p). { intros ->. apply N. eapply NoDup_nth_error; [apply (sim_nodup _ _ _ H)| |congruence]. apply nth_error_Some. congruence. }
      rewrite !nth_error_lset_other by auto. apply (sim_fields _ _ _ H c q Hq).
  - unfold f_delete, mbind, mget, mlift. pose proof (sim_var bl s t j H) as Vj. destruct (var (i_pvar t) j) as [v| | |u|] eqn:Ev; try (unfold var, lacks in Ev; destruct (nth_error (i_pvar t) j); discriminate).
    2:{ cbn [obind]. rewrite Vj. cbn. eauto. }
    destruct v as [[a i]|]; [destruct Vj as (p & _ & ->); cbn; unfold lacks; eauto|]. rewrite Vj. cbn. exists bl, s. auto.
Qed.

Lemma sim_program : forall os bl s t, sim bl s t -> no_second_read os ->
  match fprogram (istep (B := B) name) os t with
  | Ok (t', r) => exists bl' s', fprogram (fstep name grow) os s = Ok (s', r) /\ sim bl' s' t'
  | Throw _ => False
  | Exit => fprogram (fstep name grow) os s = Exit
  | UB _ => exists u, fprogram (fstep name grow) os s = UB u
  | NoFuel => fprogram (fstep name grow) os s = NoFuel
  end.
Proof.
  induction os as [|o os IH]; intros bl s t H N; cbn [fprogram]; [exists bl, s; auto|]. inversion N as [|o' os' No Ns]; subst.
  pose proof (sim_step o bl s t H No) as X. destruct (istep name o t) as [[t1 r1]| | |u|]; cbn [obind].
  - destruct X as (bl1 & s1 & -> & H1). cbn [obind fst snd]. specialize (IH bl1 s1 t1 H1 Ns).
    destruct (fprogram (istep name) os t1) as [[t2 r2]| | |u|]; cbn [obind fst snd].
    + destruct IH as (bl2 & s2 & -> & H2). cbn [obind fst snd]. eauto.
    + exact IH.
    + now rewrite IH.
    + destruct IH as (u' & ->). cbn. eauto.
    + now rewrite IH.
  - destruct X.
  - now rewrite X.
  - destruct X as (u' & ->). cbn. eauto.
  - now rewrite X.
Qed.
Lemma c_interface : forall nb np os, no_second_read os -> same_to_caller (frun (B := B) name grow nb np os) (irun name nb np os).
Proof.
  intros nb np os N. unfold frun, irun. pose proof (sim_program os _ _ _ (sim_start nb np) N) as X.
  destruct (fprogram (istep name) os _) as [[t r]| | |u|]; unfold same_to_caller.
  - destruct X as (bl & s & -> & _). reflexivity.
  - destruct X.
  - now rewrite X.
  - destruct X as (u' & ->). exact I.
  - now rewrite X.
Qed.
Lemma back : forall os bl s t s' r, sim bl s t -> no_second_read os -> fprogram (fstep (B := B) name grow) os s = Ok (s', r) ->
  exists bl' t', fprogram (istep name) os t = Ok (t', r) /\ sim bl' s' t'.
Proof.
  intros os bl s t s' r H N E. pose proof (sim_program os bl s t H N) as X. destruct (fprogram (istep name) os t) as [[t1 r1]| | |u|].
  - destruct X as (bl1 & s1 & E1 & H1). rewrite E in E1. injection E1 as <- <-. eauto.
  - destruct X.
  - congruence.
  - destruct X. congruence.
  - congruence.
Qed.

(** No two variables have the same body. *)
Definition unshared (t : ideal F) : Prop :=
  (forall k a, nth_error (i_bvar t) k = Some (Some a) -> a < List.length (i_body t)) /\
  (forall k k' a, nth_error (i_bvar t) k = Some (Some a) -> nth_error (i_bvar t) k' = Some (Some a) -> k = k').
Lemma step_unshared : forall o t t' r, unshared t -> istep (B := B) name o t = Ok (t', r) -> unshared t'.
Proof.
  intros o t t' r [U V] E. destruct o as [k fs|k fs|j k x|j m|k|j]; cbn [istep] in E.
  - unfold var, lacks in E. destruct (nth_error (i_bvar t) k) eqn:Ek; [|discriminate]. cbn [obind] in E. injection E as <- <-. split; cbn [i_bvar i_body].
    + intros k0 a. rewrite nth_lset, app_length. cbn. destruct (Nat.eqb k k0); [destruct (nth_error (i_bvar t) k0); [|discriminate]; intros [= <-]; lia|]. intros X. specialize (U _ _ X). lia.
    + intros k1 k2 a. rewrite !nth_lset. destruct (Nat.eqb_spec k k1) as [K1|N1], (Nat.eqb_spec k k2) as [K2|N2]; try congruence.
      * destruct (nth_error (i_bvar t) k1); [|discriminate]. intros [= <-] X. specialize (U _ _ X). lia.
      * intros X. destruct (nth_error (i_bvar t) k2); [|discriminate]. intros [= <-]. specialize (U _ _ X). lia.
      * apply V.
  - discriminate.
  - destruct (var (i_pvar t) j); try discriminate. cbn [obind] in E. destruct (var (i_bvar t) k) as [[a0|]| | |u|]; try discriminate. cbn [obind need] in E.
    destruct (of_body t a0) as [fs| | |u|]; try discriminate. cbn [obind] in E. destruct (first_named name x fs); injection E as <- <-; split; assumption.
  - destruct (var (i_pvar t) j) as [[q|]| | |u|]; try discriminate. cbn [obind need] in E. destruct (of_body t (fst q)) as [fs| | |u|]; try discriminate. cbn [obind] in E.
    destruct (nth_error fs (snd q)) as [f|]; try discriminate. cbn [obind need] in E.
    destruct (m f); try discriminate; injection E as <- <-; split; cbn [i_bvar i_body]; rewrite ?length_lset; assumption.
  - destruct (var (i_bvar t) k) as [[a0|]| | |u|]; try discriminate; cbn [obind] in E; [|injection E as <- <-; split; assumption].
    destruct (of_body t a0) as [fs| | |u|]; try discriminate. cbn [obind] in E. injection E as <- <-. split; cbn [i_bvar i_body].
    + intros k0 a. rewrite nth_lset, length_lset. destruct (Nat.eqb k k0); [destruct (nth_error (i_bvar t) k0); discriminate|]. apply U.
    + intros k1 k2 a. rewrite !nth_lset. destruct (Nat.eqb_spec k k1) as [K1|N1], (Nat.eqb_spec k k2) as [K2|N2]; try congruence; try apply V.
      * destruct (nth_error (i_bvar t) k1); discriminate.
      * intros _. destruct (nth_error (i_bvar t) k2); discriminate.
  - destruct (var (i_pvar t) j) as [[q|]| | |u|]; try discriminate. cbn [obind] in E. injection E as <- <-. split; assumption.
Qed.
Lemma run_unshared : forall os t t' r, unshared t -> fprogram (istep (B := B) name) os t = Ok (t', r) -> unshared t'.
Proof.
  induction os as [|o os IH]; intros t t' r U E; cbn [fprogram] in E; [injection E as <- <-; exact U|].
  destruct (istep name o t) as [[t1 r1]| | |u|] eqn:E1; try discriminate. cbn [obind fst snd] in E.
  destruct (fprogram (istep name) os t1) as [[t2 r2]| | |u|] eqn:E2; try discriminate. injection E as <- <-. eapply IH; [|exact E2]. eapply step_unshared; eauto.
Qed.
Lemma start_unshared : forall nb np, unshared (mkI [] (repeat None nb) (repeat None np)).
Proof.
  assert (X : forall (A : Type) n k (a : A), nth_error (repeat None n) k = Some (Some a) -> False).
  { intros A n k a H. apply nth_error_In, repeat_spec in H. discriminate. }
  intros nb np. split; cbn; [intros k a H | intros k k' a H]; exfalso; eapply X; eauto.
Qed.

(** Variable [j] has field [i] of the body in variable [k]. *)
Definition at_field (j k a i : nat) (x : option string) (t : ideal F) : Prop :=
  nth_error (i_bvar t) k = Some (Some a) /\ nth_error (i_pvar t) j = Some (Some (a, i)) /\
  exists fs f, nth_error (i_body t) a = Some (Some fs) /\ nth_error fs i = Some f /\ match x with Some y => name f = y | None => True end.
Lemma first_named_ok : forall x fs i, first_named name x fs = Some i -> exists f, nth_error fs i = Some f /\ name f = x.
Proof.
  intros x. induction fs as [|f fs IH]; intros i E; cbn in E; [discriminate|]. destruct (String.eqb_spec (name f) x) as [Ex|Ex].
  - injection E as <-. exists f. auto.
  - destruct (first_named name x fs) as [i'|]; [|discriminate]. injection E as <-. destruct (IH i' eq_refl) as (g & Hg & Hx). exists g. auto.
Qed.
Lemma find_at : forall j k x t t', istep (B := B) name (FFind j k x) t = Ok (t', Done) -> exists a i, at_field j k a i (Some x) t'.
Proof.
  intros j k x t t' E. cbn [istep] in E. unfold var, need, of_body, lacks in E. destruct (nth_error (i_pvar t) j) as [v|] eqn:Ej; [|discriminate]. cbn [obind] in E.
  destruct (nth_error (i_bvar t) k) as [[a|]|] eqn:Ek; try discriminate. cbn [obind] in E.
  destruct (nth_error (i_body t) a) as [[fs|]|] eqn:Ea; try discriminate. cbn [obind] in E. destruct (first_named name x fs) as [i|] eqn:Ei; [|discriminate].
  injection E as <-. exists a, i. split; [exact Ek|]. split; [cbn; rewrite nth_error_lset_same; [reflexivity|apply nth_error_Some; congruence]|].
  destruct (first_named_ok _ _ _ Ei) as (f & Hf & Hx). exists fs, f. auto.
Qed.
Lemma step_at : forall o j k a i x t t' r, unshared t -> at_field j k a i x t -> spares j k o -> (x <> None -> renames_none name o) ->
  istep (B := B) name o t = Ok (t', r) -> at_field j k a i x t'.
Proof.
  intros o j k a i x t t' r [U V] (Hk & Hj & fs & f & Ha & Hi & Hx) Sp Rn E. destruct o as [k' fs'|k' fs'|j' k' x'|j' m|k'|j']; cbn [istep spares] in *.
  - destruct (var (i_bvar t) k'); try discriminate. cbn [obind] in E. injection E as <- <-. split; [|split]; cbn [i_bvar i_pvar i_body].
    + rewrite nth_error_lset_other; auto.
    + exact Hj.
    + exists fs, f. rewrite nth_error_app1; [auto|apply nth_error_Some; congruence].
  - discriminate.
  - destruct (var (i_pvar t) j') as [v0| | |u|]; try discriminate. cbn [obind] in E. destruct (var (i_bvar t) k') as [[a0|]| | |u|]; try discriminate. cbn [obind need] in E.
    destruct (of_body t a0) as [fs0| | |u|]; try discriminate. cbn [obind] in E. destruct (first_named name x' fs0); injection E as <- <-.
    + split; [exact Hk|]. split; [cbn; rewrite nth_error_lset_other; auto|]. exists fs, f. auto.
    + split; [exact Hk|]. split; [exact Hj|]. exists fs, f. auto.
  - unfold var, of_body, need, lacks in E. destruct (nth_error (i_pvar t) j') as [[q|]|]; try discriminate. cbn [obind] in E.
    destruct (nth_error (i_body t) (fst q)) as [[fs0|]|] eqn:Eq; try discriminate. cbn [obind] in E.
    destruct (nth_error fs0 (snd q)) as [f0|] eqn:Ef; try discriminate. cbn [obind] in E.
    assert (X : forall y, (x <> None -> name y = name f0) -> at_field j k a i x (mkI (lset (i_body t) (fst q) (Some (lset fs0 (snd q) y))) (i_bvar t) (i_pvar t))).
    { intros y Hy. split; [exact Hk|]. split; [exact Hj|]. cbn [i_body]. destruct (Nat.eq_dec (fst q) a) as [Eqa|N].
      - rewrite Eqa in *. rewrite Ha in Eq. injection Eq as <-. rewrite nth_error_lset_same by (apply nth_error_Some; congruence). destruct (Nat.eq_dec (snd q) i) as [Eqi|Ni].
        + rewrite Eqi in *. rewrite Hi in Ef. injection Ef as <-. exists (lset fs i y), y. split; [reflexivity|]. split; [apply nth_error_lset_same; apply nth_error_Some; congruence|].
          destruct x; [|exact I]. rewrite Hy by discriminate. exact Hx.
        + exists (lset fs (snd q) y), f. split; [reflexivity|]. split; [rewrite nth_error_lset_other; auto|exact Hx].
      - exists fs, f. rewrite nth_error_lset_other by auto. auto. }
    cbn [renames_none] in Rn. specialize (fun n => Rn n f0). destruct (m f0) as [y v|y e| |u|] eqn:Em; try discriminate; injection E as <- <-; apply X; intros n; specialize (Rn n); exact Rn.
  - unfold var, of_body, lacks in E. destruct (nth_error (i_bvar t) k') as [[a0|]|] eqn:Ek'; try discriminate; cbn [obind] in E; [|injection E as <- <-; split; [exact Hk|split; [exact Hj|exists fs, f; auto]]].
    destruct (nth_error (i_body t) a0) as [[fs0|]|]; try discriminate. cbn [obind] in E. injection E as <- <-.
    assert (a0 <> a) by (intros ->; apply Sp; symmetry; eapply V; eauto).
    split; [cbn; rewrite nth_error_lset_other; auto|]. split; [exact Hj|]. exists fs, f. cbn. rewrite nth_error_lset_other; auto.
  - destruct (var (i_pvar t) j') as [[q|]| | |u|]; try discriminate. cbn [obind] in E. injection E as <- <-. split; [exact Hk|]. split; [exact Hj|]. exists fs, f. auto.
Qed.
Lemma run_at : forall os j k a i x t t' r, unshared t -> at_field j k a i x t -> Forall (spares j k) os -> (x <> None -> Forall (renames_none name) os) ->
  fprogram (istep (B := B) name) os t = Ok (t', r) -> at_field j k a i x t'.
Proof.
  induction os as [|o os IH]; intros j k a i x t t' r U A Sp Rn E; cbn [fprogram] in E; [injection E as <- <-; exact A|].
  destruct (istep name o t) as [[t1 r1]| | |u|] eqn:E1; try discriminate. cbn [obind fst snd] in E.
  destruct (fprogram (istep name) os t1) as [[t2 r2]| | |u|] eqn:E2; try discriminate. injection E as <- <-. inversion Sp; subst.
  eapply IH; [| |eassumption| |exact E2].
  - eapply step_unshared; eauto.
  - eapply step_at; eauto. intros n. specialize (Rn n). inversion Rn; assumption.
  - intros n. specialize (Rn n). inversion Rn; assumption.
Qed.
Lemma spares_no_read : forall j k os, Forall (spares (F := F) (B := B) j k) os -> no_second_read os.
Proof. intros j k os H. eapply Forall_impl; [|exact H]. intros o. destruct o; cbn; auto. Qed.
Lemma spares_field_no_read : forall j os, Forall (spares_field (F := F) (B := B) j) os -> no_second_read os.
Proof. intros j os H. eapply Forall_impl; [|exact H]. intros o. destruct o; cbn; auto. Qed.

Lemma call_at : forall bl s t j a i fs f, sim bl s t -> nth_error (i_pvar t) j = Some (Some (a, i)) -> nth_error (i_body t) a = Some (Some fs) -> nth_error fs i = Some f ->
  forall m : M F B, ends_as (f_call j m s) (m f).
Proof.
  intros bl s t j a i fs f H Hj Ha Hi m.
  pose proof (sim_var bl s t j H) as Vj. unfold var in Vj. rewrite Hj in Vj. destruct Vj as (p & Ep & Vj).
  pose proof (sim_of_body bl s t a H) as X. unfold of_body in X. rewrite Ha in X. destruct X as (p' & Ep' & _ & Eb). rewrite Ep in Ep'. injection Ep' as <-.
  unfold f_call, mbind, mget, mlift, f_deref. rewrite Vj. cbn [obind fst snd]. unfold h_read. rewrite Eb. cbn [bk_fields]. rewrite Hi.
  destruct (m f); cbn [ends_as]; unfold mput, mret; cbn; eauto.
Qed.

Lemma found_lives : forall nb np (os1 os2 : list (fop F B)) j k x (s1 s1' s2 : fstate F) r1 r2,
  no_second_read os1 -> frun name grow nb np os1 = Ok (s1, r1) -> f_find name j k x s1 = RRet s1' tt ->
  Forall (spares j k) os2 -> fprogram (fstep name grow) os2 s1' = Ok (s2, r2) ->
  exists f, (Forall (renames_none name) os2 -> name f = x) /\ forall m : M F B, ends_as (f_call j m s2) (m f).
Proof.
  intros nb np os1 os2 j k x s1 s1' s2 r1 r2 N1 E1 Ef Sp E2.
  destruct (back _ _ _ _ _ _ (sim_start nb np) N1 E1) as (bl1 & t1 & I1 & H1).
  assert (U1 : unshared t1) by (eapply run_unshared; [apply start_unshared|exact I1]).
  assert (Es : fprogram (fstep name grow) [FFind (B := B) j k x] s1 = Ok (s1', [Done])).
  { cbn [fprogram fstep]. rewrite Ef. reflexivity. }
  destruct (back _ _ _ _ _ _ H1 (Forall_cons (FFind j k x) (I : match FFind (F := F) (B := B) j k x with FRead _ _ => False | _ => True end) (Forall_nil _)) Es) as (bl1' & t1' & I1' & H1').
  assert (U1' : unshared t1') by (eapply run_unshared; [exact U1|exact I1']).
  cbn [fprogram] in I1'. destruct (istep name (FFind j k x) t1) as [[t0 r0]| | |u|] eqn:E0; try discriminate. cbn [obind fst snd] in I1'. injection I1' as -> ->.
  destruct (find_at _ _ _ _ _ E0) as (a & i & A).
  destruct (back _ _ _ _ _ _ H1' (spares_no_read _ _ _ Sp) E2) as (bl2 & t2 & I2 & H2).
  assert (A' : at_field j k a i None t1') by (destruct A as (X & Y & fs & f & Z & W & _); split; [exact X|split; [exact Y|exists fs, f; auto]]).
  pose proof (run_at os2 j k a i None t1' t2 r2 U1' A' Sp ltac:(congruence) I2) as P.
  destruct P as (_ & Pj & fs & f' & Pa & Pi & _).
  exists f'. split.
  - intros Rn. destruct (run_at os2 j k a i (Some x) t1' t2 r2 U1' A Sp (fun _ => Rn) I2) as (_ & _ & fs2 & f2 & Qa & Qi & Qx).
    rewrite Pa in Qa. injection Qa as <-. rewrite Pi in Qi. injection Qi as <-. exact Qx.
  - exact (call_at bl2 s2 t2 j a i fs f' H2 Pj Pa Pi).
Qed.

(** The body is gone. *)
Definition gone (j a i : nat) (t : ideal F) : Prop := nth_error (i_pvar t) j = Some (Some (a, i)) /\ nth_error (i_body t) a = Some None.
Lemma step_gone : forall o j a i t t' r, gone j a i t -> spares_field j o -> istep (B := B) name o t = Ok (t', r) -> gone j a i t'.
Proof.
  intros o j a i t t' r [Hj Ha] Sp E. destruct o as [k' fs'|k' fs'|j' k' x'|j' m|k'|j']; cbn [istep spares_field] in *.
  - destruct (var (i_bvar t) k'); try discriminate. cbn [obind] in E. injection E as <- <-. split; [exact Hj|]. cbn. rewrite nth_error_app1; [exact Ha|apply nth_error_Some; congruence].
  - discriminate.
  - destruct (var (i_pvar t) j') as [v0| | |u|]; try discriminate. cbn [obind] in E. destruct (var (i_bvar t) k') as [[a0|]| | |u|]; try discriminate. cbn [obind need] in E.
    destruct (of_body t a0) as [fs0| | |u|]; try discriminate. cbn [obind] in E. destruct (first_named name x' fs0); injection E as <- <-; split; cbn; rewrite ?nth_error_lset_other; auto.
  - unfold var, of_body, need, lacks in E. destruct (nth_error (i_pvar t) j') as [[q|]|]; try discriminate. cbn [obind] in E.
    destruct (nth_error (i_body t) (fst q)) as [[fs0|]|] eqn:Eq; try discriminate. cbn [obind] in E.
    destruct (nth_error fs0 (snd q)) as [f0|] eqn:Ef; try discriminate. cbn [obind] in E.
    assert (fst q <> a) by congruence.
    destruct (m f0); try discriminate; injection E as <- <-; split; cbn; auto; rewrite nth_error_lset_other; auto.
  - unfold var, of_body, lacks in E. destruct (nth_error (i_bvar t) k') as [[a0|]|] eqn:Ek'; try discriminate; cbn [obind] in E; [|injection E as <- <-; split; assumption].
    destruct (nth_error (i_body t) a0) as [[fs0|]|] eqn:E0; try discriminate. cbn [obind] in E. injection E as <- <-. split; [exact Hj|]. cbn. rewrite nth_error_lset_other by congruence. exact Ha.
  - destruct (var (i_pvar t) j') as [[q|]| | |u|]; try discriminate. cbn [obind] in E. injection E as <- <-. split; assumption.
Qed.
Lemma run_gone : forall os j a i t t' r, gone j a i t -> Forall (spares_field j) os -> fprogram (istep (B := B) name) os t = Ok (t', r) -> gone j a i t'.
Proof.
  induction os as [|o os IH]; intros j a i t t' r A Sp E; cbn [fprogram] in E; [injection E as <- <-; exact A|].
  destruct (istep name o t) as [[t1 r1]| | |u|] eqn:E1; try discriminate. cbn [obind fst snd] in E.
  destruct (fprogram (istep name) os t1) as [[t2 r2]| | |u|] eqn:E2; try discriminate. injection E as <- <-. inversion Sp; subst.
  eapply IH; [|eassumption|exact E2]. eapply step_gone; eauto.
Qed.

Lemma program_app : forall (S : Type) (step : fop F B -> S -> outcome (S * reply B)) os1 os2 s s' r, fprogram step (os1 ++ os2) s = Ok (s', r) ->
  exists s1 r1 r2, fprogram step os1 s = Ok (s1, r1) /\ fprogram step os2 s1 = Ok (s', r2) /\ r = r1 ++ r2.
Proof.
  intros S step os1. induction os1 as [|o os1 IH]; intros os2 s s' r E; cbn [app fprogram] in *.
  - exists s, [], r. auto.
  - destruct (step o s) as [[s1 r1]| | |u|]; try discriminate. cbn [obind fst snd] in *.
    destruct (fprogram step (os1 ++ os2) s1) as [[s2 r2]| | |u|] eqn:E2; try discriminate. injection E as <- <-. destruct (IH _ _ _ _ E2) as (s3 & r3 & r4 & -> & E4 & ->).
    cbn [obind fst snd]. exists s3, (r1 :: r3), r4. auto.
Qed.

Lemma found_dies : forall nb np (os1 os2 os3 : list (fop F B)) j k x (s1 s1' s2 : fstate F) r1 r2,
  no_second_read os1 -> frun name grow nb np os1 = Ok (s1, r1) -> f_find name j k x s1 = RRet s1' tt ->
  Forall (spares j k) os2 -> Forall (spares_field j) os3 -> fprogram (fstep name grow) (os2 ++ FDeleteBody k :: os3) s1' = Ok (s2, r2) ->
  forall m : M F B, f_call j m s2 = RUB UBDangling.
Proof.
  intros nb np os1 os2 os3 j k x s1 s1' s2 r1 r2 N1 E1 Ef Sp Sp3 E2 m.
  destruct (back _ _ _ _ _ _ (sim_start nb np) N1 E1) as (bl1 & t1 & I1 & H1).
  assert (U1 : unshared t1) by (eapply run_unshared; [apply start_unshared|exact I1]).
  assert (Es : fprogram (fstep name grow) [FFind (B := B) j k x] s1 = Ok (s1', [Done])).
  { cbn [fprogram fstep]. rewrite Ef. reflexivity. }
  destruct (back _ _ _ _ _ _ H1 (Forall_cons (FFind j k x) (I : match FFind (F := F) (B := B) j k x with FRead _ _ => False | _ => True end) (Forall_nil _)) Es) as (bl1' & t1' & I1' & H1').
  assert (U1' : unshared t1') by (eapply run_unshared; [exact U1|exact I1']).
  cbn [fprogram] in I1'. destruct (istep name (FFind j k x) t1) as [[t0 r0]| | |u|] eqn:E0; try discriminate. cbn [obind fst snd] in I1'. injection I1' as -> ->.
  destruct (find_at _ _ _ _ _ E0) as (a & i & A).
  assert (A' : at_field j k a i None t1') by (destruct A as (X & Y & fs & f & Z & W & _); split; [exact X|split; [exact Y|exists fs, f; auto]]).
  assert (N2 : no_second_read (os2 ++ FDeleteBody k :: os3)).
  { apply Forall_app. split; [exact (spares_no_read _ _ _ Sp)|]. constructor; [exact I|exact (spares_field_no_read _ _ Sp3)]. }
  destruct (back _ _ _ _ _ _ H1' N2 E2) as (bl2 & t2 & I2 & H2).
  destruct (program_app _ _ _ _ _ _ _ I2) as (ta & ra & rb & Ia & Ib & _).
  destruct (run_at os2 j k a i None t1' ta ra U1' A' Sp ltac:(congruence) Ia) as (Pk & Pj & fs & f & Pa & Pi & _).
  cbn [fprogram] in Ib. destruct (istep name (FDeleteBody k) ta) as [[tb rb']| | |u|] eqn:Ed; try discriminate. cbn [obind fst snd] in Ib.
  destruct (fprogram (istep name) os3 tb) as [[tc rc]| | |u|] eqn:Ec; try discriminate. injection Ib as -> _.
  assert (G : gone j a i tb).
  { cbn [istep] in Ed. unfold var, of_body in Ed. rewrite Pk in Ed. cbn [obind] in Ed. rewrite Pa in Ed. cbn [obind] in Ed. injection Ed as <- <-. split; [exact Pj|].
    cbn. apply nth_error_lset_same. apply nth_error_Some. congruence. }
  destruct (run_gone os3 j a i tb t2 rc G Sp3 Ec) as [Qj Qa].
  pose proof (sim_var bl2 s2 t2 j H2) as Vj. unfold var in Vj. rewrite Qj in Vj. destruct Vj as (p & Ep & Vj).
  pose proof (sim_of_body bl2 s2 t2 a H2) as X. unfold of_body in X. rewrite Qa in X. destruct X as [_ X].
  unfold f_call, mbind, mget, mlift, f_deref. rewrite Vj. cbn [obind fst snd]. rewrite (X p Ep). reflexivity.
Qed.
(** ** A second read *)

(** Every body has its own block, with the room push_back makes. *)
Definition tidy (s : fstate F) : Prop :=
  (forall a p, nth_error (f_body s) a = Some (Some p) -> exists fs, nth_error (f_block s) p = Some (Some (mkBlock fs (room_after grow (List.length fs))))) /\
  (forall a a' p, nth_error (f_body s) a = Some (Some p) -> nth_error (f_body s) a' = Some (Some p) -> a = a') /\
  (forall k a, nth_error (f_bvar s) k = Some (Some a) -> a < List.length (f_body s)).
Lemma tidy_start : forall nb np, tidy (f_start nb np).
Proof.
  intros nb np. split; [|split]; cbn; intros a.
  - intros p. destruct a; discriminate.
  - intros a' p. destruct a; discriminate.
  - intros p H. apply nth_error_In, repeat_spec in H. discriminate.
Qed.
Lemma tidy_read : forall a fs s, tidy s -> (exists p, nth_error (f_body s) a = Some (Some p)) -> exists s', f_read_body grow a fs s = Ok s' /\ tidy s' /\
  f_bvar s' = f_bvar s /\ f_pvar s' = f_pvar s /\ List.length (f_body s') = List.length (f_body s) /\
  forall p b, nth_error (f_body s) a = Some (Some p) -> nth_error (f_block s) p = Some (Some b) ->
    exists p', nth_error (f_body s') a = Some (Some p') /\ nth_error (f_block s') p' = Some (Some (mkBlock (bk_fields b ++ fs) (room_after grow (List.length (bk_fields b ++ fs))))) /\
      (p' = p \/ nth_error (f_block s') p = Some None) /\
      ((forall n, n < grow n) -> (p' = p <-> List.length (bk_fields b) + List.length fs <= room_after grow (List.length (bk_fields b)))).
Proof.
  intros a fs s (T1 & T2 & T3) (p & Hp). destruct (T1 a p Hp) as (fs0 & Hb).
  destruct (push_all fs (f_block s) p (mkBlock fs0 (room_after grow (List.length fs0))) Hb eq_refl) as (h' & p' & E & A & L & Lp & C & D & G). cbn [bk_fields] in *.
  exists (mkF (lset (f_body s) a (Some p')) h' (f_bvar s) (f_pvar s)). assert (La : a < List.length (f_body s)) by (apply nth_error_Some; congruence).
  split; [unfold f_read_body, h_read; rewrite Hp; cbn [obind]; rewrite E; reflexivity|]. cbn [f_body f_block f_bvar f_pvar]. split; [|split; [reflexivity|split; [reflexivity|split; [apply length_lset|]]]].
  - assert (Old : forall a' q, a' <> a -> nth_error (f_body s) a' = Some (Some q) -> q < List.length (f_block s) /\ q <> p /\ q <> p').
    { intros a' q N Hq. destruct (T1 a' q Hq) as (fs' & Hq'). assert (q < List.length (f_block s)) by (apply nth_error_Some; congruence). split; [assumption|].
      assert (q <> p) by (intros ->; apply N; eapply T2; eauto). split; [assumption|]. destruct C as [->|[C _]]; [assumption|lia]. }
    split; [|split]; cbn [f_body f_block f_bvar f_pvar]; rewrite ?length_lset; [| |exact T3].
    + intros a' q Hq. destruct (Nat.eq_dec a a') as [<-|N].
      * rewrite nth_error_lset_same in Hq by exact La. injection Hq as <-. eauto.
      * rewrite nth_error_lset_other in Hq by exact N. destruct (Old a' q) as (O1 & O2 & _); auto. rewrite D by assumption. eapply T1; eauto.
    + intros a1 a2 q H1 H2. destruct (Nat.eq_dec a a1) as [E1|N1], (Nat.eq_dec a a2) as [E2|N2]; try congruence; try subst a1; try subst a2.
      * rewrite nth_error_lset_same in H1 by exact La. injection H1 as <-. rewrite nth_error_lset_other in H2 by exact N2. destruct (Old a2 p') as (_ & _ & O); auto. congruence.
      * rewrite nth_error_lset_same in H2 by exact La. injection H2 as <-. rewrite nth_error_lset_other in H1 by exact N1. destruct (Old a1 p') as (_ & _ & O); auto. congruence.
      * rewrite nth_error_lset_other in H1, H2 by assumption. eapply T2; eauto.
  - intros p0 b Hp0 Hb0. rewrite Hp in Hp0. injection Hp0 as <-. rewrite Hb in Hb0. injection Hb0 as <-. cbn [bk_fields]. exists p'. rewrite nth_error_lset_same by exact La.
    split; [reflexivity|]. split; [exact A|]. split; [destruct C as [C|[_ C]]; auto|exact G].
Qed.
Lemma tidy_step : forall o s s' r, tidy s -> fstep (B := B) name grow o s = Ok (s', r) -> tidy s'.
Proof.
  intros o s s' r T E. destruct o as [k fs|k fs|j k x|j m|k|j]; cbn [fstep] in E.
  - unfold f_new, mbind, mget, mlift in E. unfold f_var in E. destruct (nth_error (f_bvar s) k) as [v|] eqn:Ek; [|discriminate].
    set (s0 := mkF _ _ _ _) in E. assert (T0 : tidy s0).
    { destruct T as (T1 & T2 & T3). assert (In : forall a p, nth_error (f_body s) a = Some (Some p) -> p < List.length (f_block s)).
      { intros a p H. destruct (T1 a p H) as (f & Hf). apply nth_error_Some. congruence. }
      assert (New : forall (A : Type) (l : list (option A)) x a y, nth_error (h_new x l) a = Some (Some y) -> nth_error l a = Some (Some y) \/ a = List.length l /\ y = x).
      { intros A l x a y H. unfold h_new in H. destruct (Nat.lt_ge_cases a (List.length l)); [rewrite nth_error_app1 in H by assumption; auto|].
        rewrite nth_error_app2 in H by assumption. destruct (a - List.length l) as [|[|d]] eqn:Ed; cbn in H; try discriminate. injection H as <-. right. split; [lia|reflexivity]. }
      split; [|split]; cbn [s0 f_body f_block f_bvar f_pvar].
      - intros a p H. apply New in H. destruct H as [H|[-> ->]].
        + destruct (T1 a p H) as (f & Hf). exists f. unfold h_new. rewrite nth_error_app1 by (eapply In; eauto). exact Hf.
        + exists []. unfold h_new. rewrite nth_error_app2, Nat.sub_diag by lia. reflexivity.
      - intros a a' p H H'. apply New in H. apply New in H'. destruct H as [H|[-> ->]], H' as [H'|[-> E']]; [eapply T2; eauto| | |reflexivity].
        + subst p. apply In in H. lia.
        + apply In in H'. lia.
      - intros k' a. unfold h_new. rewrite app_length, nth_lset. cbn. destruct (Nat.eqb k k').
        + destruct (nth_error (f_bvar s) k'); [|discriminate]. intros [= <-]. lia.
        + intros H. apply T3 in H. lia. }
    destruct (tidy_read (List.length (f_body s)) fs s0 T0) as (s1 & E1 & T' & _).
    { exists (List.length (f_block s)). cbn [s0 f_body]. unfold h_new. rewrite nth_error_app2, Nat.sub_diag by lia. reflexivity. }
    rewrite E1 in E. cbn in E. injection E as <- <-. exact T'.
  - unfold f_read, mbind, mget, mlift, f_deref, f_var in E. destruct (nth_error (f_bvar s) k) as [[a|]|] eqn:Ek; try discriminate. cbn [obind] in E.
    destruct (nth_error (f_body s) a) as [[p|]|] eqn:Ea.
    + destruct (tidy_read a fs s T (ex_intro _ p Ea)) as (s1 & E1 & T' & _). rewrite E1 in E. cbn in E. injection E as <- <-. exact T'.
    + unfold f_read_body, h_read in E. rewrite Ea in E. discriminate.
    + unfold f_read_body, h_read in E. rewrite Ea in E. discriminate.
  - unfold f_find, mbind, mget, mlift, f_deref, f_var, h_read in E. destruct (nth_error (f_pvar s) j); try discriminate. destruct (nth_error (f_bvar s) k) as [[a|]|]; try discriminate. cbn [obind] in E.
    destruct (nth_error (f_body s) a) as [[p|]|]; try discriminate. destruct (nth_error (f_block s) p) as [[b|]|]; try discriminate.
    destruct (position name x (bk_fields b)); cbn in E; injection E as <- <-; exact T.
  - unfold f_call, mbind, mget, mlift, f_deref, f_var, h_read in E. destruct (nth_error (f_pvar s) j) as [[q|]|]; try discriminate. cbn [obind] in E.
    destruct (nth_error (f_block s) (fst q)) as [[b|]|] eqn:Eb; try discriminate. destruct (nth_error (bk_fields b) (snd q)) as [f|]; try discriminate.
    assert (X : forall y, tidy (mkF (f_body s) (lset (f_block s) (fst q) (Some (mkBlock (lset (bk_fields b) (snd q) y) (bk_room b)))) (f_bvar s) (f_pvar s))).
    { intros y. destruct T as (T1 & T2 & T3). split; [|split; assumption]. intros a p H. cbn [f_body f_block] in *. destruct (T1 a p H) as (fs & Hf). destruct (Nat.eq_dec (fst q) p) as [Eq|N].
      - rewrite Eq in *. rewrite Hf in Eb. injection Eb as <-. cbn [bk_fields bk_room]. rewrite nth_error_lset_same by (apply nth_error_Some; congruence).
        exists (lset fs (snd q) y). now rewrite length_lset.
      - rewrite nth_error_lset_other by exact N. eauto. }
    destruct (m f); cbn in E; try discriminate; injection E as <- <-; apply X.
  - unfold f_delete_body, mbind, mget, mlift, f_var, h_read, h_delete in E. destruct (nth_error (f_bvar s) k) as [[a|]|] eqn:Ek; try discriminate; [|cbn in E; injection E as <- <-; exact T].
    destruct (nth_error (f_body s) a) as [[p|]|] eqn:Ea; try discriminate. destruct (nth_error (f_block s) p) as [[b|]|]; try discriminate. cbn in E. injection E as <- <-.
    destruct T as (T1 & T2 & T3). assert (La : a < List.length (f_body s)) by (apply nth_error_Some; congruence).
    assert (Old : forall a' q, nth_error (lset (f_body s) a None) a' = Some (Some q) -> a' <> a /\ nth_error (f_body s) a' = Some (Some q)).
    { intros a' q H. destruct (Nat.eq_dec a a') as [<-|N]; [rewrite nth_error_lset_same in H by exact La; discriminate|]. rewrite nth_error_lset_other in H by exact N. auto. }
    split; [|split]; cbn [f_body f_block f_bvar f_pvar].
    + intros a' q H. destruct (Old _ _ H) as [N H']. rewrite nth_error_lset_other; [eauto|]. intros ->. apply N. eapply T2; eauto.
    + intros a1 a2 q H1 H2. destruct (Old _ _ H1) as [_ H1'], (Old _ _ H2) as [_ H2']. eapply T2; eauto.
    + intros k' a'. rewrite length_lset, nth_lset. destruct (Nat.eqb k k'); [destruct (nth_error (f_bvar s) k'); discriminate|]. apply T3.
  - unfold f_delete, mbind, mget, mlift, f_var in E. destruct (nth_error (f_pvar s) j) as [[q|]|]; try discriminate. cbn in E. injection E as <- <-. exact T.
Qed.
Lemma tidy_run : forall os s s' r, tidy s -> fprogram (fstep (B := B) name grow) os s = Ok (s', r) -> tidy s'.
Proof.
  induction os as [|o os IH]; intros s s' r T E; cbn [fprogram] in E; [injection E as <- <-; exact T|].
  destruct (fstep name grow o s) as [[s1 r1]| | |u|] eqn:E1; try discriminate. cbn [obind fst snd] in E.
  destruct (fprogram (fstep name grow) os s1) as [[s2 r2]| | |u|] eqn:E2; try discriminate. injection E as <- <-. eapply IH; [|exact E2]. eapply tidy_step; eauto.
Qed.

Lemma position_ok : forall x fs i, position name x fs = Some i -> exists f, nth_error fs i = Some f /\ name f = x.
Proof. intros x fs i. rewrite position_first. apply first_named_ok. Qed.

(** What the find did. *)
Lemma find_ok : forall j k x (s s' : fstate F), f_find name j k x s = RRet s' tt ->
  exists a p b i f, nth_error (f_bvar s) k = Some (Some a) /\ nth_error (f_body s) a = Some (Some p) /\ nth_error (f_block s) p = Some (Some b) /\
    nth_error (bk_fields b) i = Some f /\ name f = x /\ j < List.length (f_pvar s) /\ s' = mkF (f_body s) (f_block s) (f_bvar s) (lset (f_pvar s) j (Some (p, i))).
Proof.
  intros j k x s s' E. unfold f_find, mbind, mget, mlift, f_deref, f_var, h_read in E. destruct (nth_error (f_pvar s) j) eqn:Ej; try discriminate.
  destruct (nth_error (f_bvar s) k) as [[a|]|] eqn:Ek; try discriminate. cbn [obind] in E.
  destruct (nth_error (f_body s) a) as [[p|]|] eqn:Ea; try discriminate. destruct (nth_error (f_block s) p) as [[b|]|] eqn:Eb; try discriminate.
  destruct (position name x (bk_fields b)) as [i|] eqn:Ei; cbn in E; [|discriminate]. injection E as <-. destruct (position_ok _ _ _ Ei) as (f & Hf & Hx).
  exists a, p, b, i, f. repeat split; auto. apply nth_error_Some. congruence.
Qed.

Lemma second_read : forall nb np (os : list (fop F B)) j k x fs fs0 (s s' s'' : fstate F) r,
  (forall n, n < grow n) -> frun name grow nb np os = Ok (s, r) -> f_find name j k x s = RRet s' tt -> body_fields s k fs0 -> f_read grow k fs s' = RRet s'' tt ->
  body_fields s'' k (fs0 ++ fs) /\
  (List.length fs0 + List.length fs <= room_after grow (List.length fs0) -> exists f, name f = x /\ forall m : M F B, ends_as (f_call j m s'') (m f)) /\
  (room_after grow (List.length fs0) < List.length fs0 + List.length fs -> forall m : M F B, f_call j m s'' = RUB UBDangling).
Proof.
  intros nb np os j k x fs fs0 s s' s'' r G E Ef (a0 & p0 & b0 & Hk0 & Ha0 & Hp0 & Hb0) Er.
  assert (T : tidy s) by (eapply tidy_run; [apply tidy_start|exact E]).
  destruct (find_ok _ _ _ _ _ Ef) as (a & p & b & i & f & Hk & Ha & Hp & Hi & Hx & Lj & ->).
  rewrite Hk in Hk0. injection Hk0 as <-. rewrite Ha in Ha0. injection Ha0 as <-. rewrite Hp in Hp0. injection Hp0 as <-. subst fs0.
  unfold f_read, mbind, mget, mlift, f_deref, f_var in Er. cbn [f_bvar] in Er. rewrite Hk in Er. cbn [obind] in Er.
  set (s' := mkF _ _ _ _) in Er. assert (T' : tidy s') by exact T.
  destruct (tidy_read a fs s' T' (ex_intro _ p Ha)) as (s1 & E1 & T1 & V1 & P1 & L1 & X). rewrite E1 in Er. cbn in Er. injection Er as <-.
  destruct (X p b Ha Hp) as (p' & Ha' & Hp' & C & D). specialize (D G).
  assert (Q : nth_error (f_pvar s1) j = Some (Some (p, i))) by (rewrite P1; cbn [s' f_pvar]; apply nth_error_lset_same; exact Lj).
  split; [|split].
  - exists a, p', (mkBlock (bk_fields b ++ fs) (room_after grow (List.length (bk_fields b ++ fs)))). rewrite V1. cbn [s' f_bvar bk_fields]. auto.
  - intros L. apply D in L. subst p'. exists f. split; [exact Hx|]. intros m. unfold f_call, mbind, mget, mlift, f_deref, f_var, h_read. rewrite Q. cbn [obind fst snd]. rewrite Hp'. cbn [bk_fields].
    rewrite nth_error_app1 by (apply nth_error_Some; congruence). rewrite Hi. destruct (m f); cbn [ends_as]; unfold mput, mret; cbn; eauto.
  - intros L m. destruct C as [C|C]; [apply D in C; lia|]. unfold f_call, mbind, mget, mlift, f_deref, f_var, h_read. rewrite Q. cbn [obind fst snd]. now rewrite C.
Qed.

(** ** The other two calls *)
Lemma find_unknown : forall j k x fs0 (s : fstate F), body_fields s k fs0 -> j < List.length (f_pvar s) -> (forall f, In f fs0 -> name f <> x) ->
  f_find name j k x s = RThrow s InvalidArgument.
Proof.
  intros j k x fs0 s (a & p & b & Hk & Ha & Hp & <-) Lj N. unfold f_find, mbind, mget, mlift, f_deref, f_var, h_read.
  apply nth_error_Some in Lj. destruct (nth_error (f_pvar s) j); [|congruence]. rewrite Hk. cbn [obind]. rewrite Ha, Hp.
  assert (Z : position name x (bk_fields b) = None).
  { revert N. generalize (bk_fields b). intros l N. induction l as [|f l IH]; [reflexivity|]. cbn. destruct (String.eqb_spec (name f) x) as [e|e]; [destruct (N f (or_introl eq_refl) e)|].
    rewrite IH; [reflexivity|]. intros g Hg. apply N. right. exact Hg. }
  now rewrite Z.
Qed.
Lemma find_known : forall j k x fs0 (s : fstate F), body_fields s k fs0 -> j < List.length (f_pvar s) -> (exists f, In f fs0 /\ name f = x) ->
  exists s', f_find name j k x s = RRet s' tt.
Proof.
  intros j k x fs0 s (a & p & b & Hk & Ha & Hp & <-) Lj N. unfold f_find, mbind, mget, mlift, f_deref, f_var, h_read.
  apply nth_error_Some in Lj. destruct (nth_error (f_pvar s) j); [|congruence]. rewrite Hk. cbn [obind]. rewrite Ha, Hp.
  assert (Z : exists i, position name x (bk_fields b) = Some i).
  { destruct N as (f & Hf & Hx). revert Hf. generalize (bk_fields b). intros l. induction l as [|g l IH]; [intros []|]. intros Hg. cbn. destruct (String.eqb_spec (name g) x) as [e|e]; [eauto|].
    destruct Hg as [->|Hg]; [congruence|]. destruct (IH Hg) as (i & ->). cbn. eauto. }
  destruct Z as (i & ->). eexists. reflexivity.
Qed.
Lemma pvar_kept : forall o j (s s' : fstate F) r, spares_field j o -> fstep (B := B) name grow o s = Ok (s', r) -> nth_error (f_pvar s') j = nth_error (f_pvar s) j.
Proof.
  intros o j s s' r Sp E. destruct o as [k fs|k fs|j' k x|j' m|k|j']; cbn [fstep spares_field] in *.
  - unfold f_new, mbind, mget, mlift in E. destruct (f_var (f_bvar s) k); try discriminate; try (cbn in E; injection E as <- <-; reflexivity). unfold f_read_body in E. cbn [f_body] in E. destruct (h_read _ _) in E; try discriminate; try (cbn in E; injection E as <- <-; reflexivity). cbn [obind] in E.
    destruct (ofold _ _ _) in E; try discriminate; try (cbn in E; injection E as <- <-; reflexivity).
  - destruct Sp.
  - unfold f_find, mbind, mget, mlift in E. destruct (f_var (f_pvar s) j'); try discriminate; try (cbn in E; injection E as <- <-; reflexivity). destruct (f_deref (f_bvar s) k); try discriminate; try (cbn in E; injection E as <- <-; reflexivity).
    destruct (h_read (f_body s) _); try discriminate; try (cbn in E; injection E as <- <-; reflexivity). destruct (h_read (f_block s) _); try discriminate; try (cbn in E; injection E as <- <-; reflexivity).
    destruct (position _ _ _); cbn in E; injection E as <- <-; cbn; [apply nth_error_lset_other; auto|reflexivity].
  - unfold f_call, mbind, mget, mlift in E. destruct (f_deref (f_pvar s) j'); try discriminate; try (cbn in E; injection E as <- <-; reflexivity). destruct (h_read (f_block s) _); try discriminate; try (cbn in E; injection E as <- <-; reflexivity).
    destruct (nth_error _ (snd _)) as [f|] in E; try discriminate; try (cbn in E; injection E as <- <-; reflexivity). destruct (m f); cbn in E; try discriminate; injection E as <- <-; reflexivity.
  - unfold f_delete_body, mbind, mget, mlift in E. destruct (f_var (f_bvar s) k) as [[a|]| | |u|]; try discriminate; try (cbn in E; injection E as <- <-; reflexivity).
    destruct (h_read (f_body s) _); try discriminate; try (cbn in E; injection E as <- <-; reflexivity). destruct (h_delete (f_block s) _); try discriminate; try (cbn in E; injection E as <- <-; reflexivity). destruct (h_delete (f_body s) _); try discriminate; try (cbn in E; injection E as <- <-; reflexivity).
  - unfold f_delete, mbind, mget, mlift in E. destruct (f_var (f_pvar s) j') as [[q|]| | |u|]; try discriminate; try (cbn in E; injection E as <- <-; reflexivity).
Qed.
Lemma pvar_kept_run : forall os j (s s' : fstate F) r, Forall (spares_field j) os -> fprogram (fstep (B := B) name grow) os s = Ok (s', r) -> nth_error (f_pvar s') j = nth_error (f_pvar s) j.
Proof.
  induction os as [|o os IH]; intros j s s' r Sp E; cbn [fprogram] in E; [injection E as <- <-; reflexivity|].
  destruct (fstep name grow o s) as [[s1 r1]| | |u|] eqn:E1; try discriminate. cbn [obind fst snd] in E.
  destruct (fprogram (fstep name grow) os s1) as [[s2 r2]| | |u|] eqn:E2; try discriminate. injection E as <- <-. inversion Sp; subst.
  rewrite (IH j s1 s2 r2) by assumption. eapply pvar_kept; eauto.
Qed.
Lemma delete_field : forall j k x (os : list (fop F B)) (s s' s'' : fstate F) r, f_find name j k x s = RRet s' tt -> Forall (spares_field j) os ->
  fprogram (fstep name grow) os s' = Ok (s'', r) -> f_delete j s'' = RUB UBBadDelete.
Proof.
  intros j k x os s s' s'' r E Sp E2. destruct (find_ok _ _ _ _ _ E) as (a & p & b & i & f & _ & _ & _ & _ & _ & Lj & ->).
  pose proof (pvar_kept_run os j _ _ _ Sp E2) as K. cbn [f_pvar] in K. rewrite nth_error_lset_same in K by exact Lj.
  unfold f_delete, mbind, mget, mlift, f_var. rewrite K. reflexivity.
Qed.
End Sim.

(** ** A case *)
Local Open Scope string_scope.
Local Open Scope list_scope.
(** Fields with a name and a number; a call that adds one to the number and returns the old one. *)
Definition ex_name (f : string * nat) : string := fst f.
Definition ex_bump : M (string * nat) nat := fun f => RRet (fst f, S (snd f)) (snd f).
Definition ex_fail : M (string * nat) nat := fun f => RThrow f DomainError.
Definition ex_os : list (fop (string * nat) nat) := [FNew 0 [("T", 1); ("c", 5)]; FFind 0 0 "c"; FCall 0 ex_bump; FNew 1 [("c", 7)]].
Definition ex_os2 : list (fop (string * nat) nat) := [FFind 1 0 "c"; FCall 1 ex_bump; FFind 1 1 "zz"; FDeleteBody 1; FCall 0 ex_fail].
Definition replies {S B : Type} (r : outcome (S * list (reply B))) : option (list (reply B)) := match r with Ok p => Some (snd p) | _ => None end.

Lemma ex_run : no_second_read (ex_os ++ ex_os2) /\ replies (frun ex_name doubling 2 2 (ex_os ++ ex_os2)) = Some [Done; Done; Value 5; Done; Done; Value 6; Raised InvalidArgument; Done; Raised DomainError].
Proof. split; [repeat constructor|]. vm_compute. reflexivity. Qed.
Lemma ex_ub : exists os, no_second_read os /\ frun ex_name doubling 2 2 (ex_os ++ os) = UB UBDangling.
Proof. exists [FDeleteBody 0; FCall 0 ex_bump]. split; [repeat constructor|]. vm_compute. reflexivity. Qed.

Lemma ex_lives : exists s1 r1 s1' s2 r2, no_second_read ex_os /\ frun ex_name doubling 2 2 ex_os = Ok (s1, r1) /\ f_find ex_name 0 0 "c" s1 = RRet s1' tt /\
  Forall (spares 0 0) ex_os2 /\ Forall (renames_none ex_name) ex_os2 /\ fprogram (fstep ex_name doubling) ex_os2 s1' = Ok (s2, r2).
Proof.
  do 5 eexists. split; [repeat constructor|]. split; [vm_compute; reflexivity|]. split; [vm_compute; reflexivity|]. split; [repeat constructor; discriminate|].
  split; [repeat constructor|]. vm_compute. reflexivity.
Qed.
Lemma ex_dies : exists s1 r1 s1' s2 r2, no_second_read ex_os /\ frun ex_name doubling 2 2 ex_os = Ok (s1, r1) /\ f_find ex_name 0 0 "c" s1 = RRet s1' tt /\
  Forall (spares 0 0) ex_os2 /\ Forall (spares_field (B := nat) 0) [FNew 0 [("c", 9)]] /\
  fprogram (fstep ex_name doubling) ([FFind 1 0 "c"] ++ FDeleteBody (B := nat) 0 :: [FNew 0 [("c", 9)]; FCall 0 ex_bump]) s1' = UB UBDangling /\
  fprogram (fstep ex_name doubling) (ex_os2 ++ FDeleteBody 0 :: [FNew 0 [("c", 9)]]) s1' = Ok (s2, r2).
Proof.
  do 5 eexists. split; [repeat constructor|]. split; [vm_compute; reflexivity|]. split; [vm_compute; reflexivity|]. split; [repeat constructor; discriminate|].
  split; [repeat constructor; discriminate|]. split; [vm_compute; reflexivity|]. vm_compute. reflexivity.
Qed.

(** Doubling: a vector made of one element at a time is full at 1, 2, 4, 8 elements. *)
Lemma ex_second : (forall n, n < doubling n) /\
  exists os s r s' s'', frun (B := nat) ex_name doubling 2 2 os = Ok (s, r) /\ f_find ex_name 0 0 "T" s = RRet s' tt /\
    body_fields s 0 [("T", 1)] /\ f_read doubling 0 [("c", 5)] s' = RRet s'' tt /\ room_after doubling 1 < 1 + 1 /\ f_call 0 ex_bump s'' = RUB UBDangling.
Proof.
  split; [intros n; unfold doubling; lia|]. exists [FNew 0 [("T", 1)]]. do 4 eexists. split; [vm_compute; reflexivity|]. split; [vm_compute; reflexivity|].
  split; [do 3 eexists; repeat split|]. split; [vm_compute; reflexivity|]. split; [vm_compute; lia|]. vm_compute. reflexivity.
Qed.
Lemma ex_second_kept : exists os s r s' s'', frun (B := nat) ex_name doubling 2 2 os = Ok (s, r) /\ f_find ex_name 0 0 "T" s = RRet s' tt /\
    body_fields s 0 [("T", 1); ("c", 5); ("d", 8)] /\ f_read doubling 0 [("e", 4)] s' = RRet s'' tt /\ 3 + 1 <= room_after doubling 3 /\
    exists s3, f_call 0 ex_bump s'' = RRet s3 1.
Proof.
  exists [FNew 0 [("T", 1)]; FRead 0 [("c", 5); ("d", 8)]]. do 4 eexists. split; [vm_compute; reflexivity|]. split; [vm_compute; reflexivity|].
  split; [do 3 eexists; repeat split|]. split; [vm_compute; reflexivity|]. split; [vm_compute; lia|]. eexists. vm_compute. reflexivity.
Qed.
Lemma ex_delete : exists s s' s'' r, f_find ex_name 0 0 "c" s = RRet s' tt /\ Forall (spares_field 0) [FCall 0 ex_bump; FDeleteBody 0] /\
  fprogram (fstep ex_name doubling) [FCall 0 ex_bump; FDeleteBody 0] s' = Ok (s'', r).
Proof.
  destruct ex_lives as (s1 & r1 & s1' & s2 & r2 & _ & E & F & _). exists s1, s1'. vm_compute in E. injection E as <- <-. vm_compute in F. injection F as <-.
  do 2 eexists. split; [vm_compute; reflexivity|]. split; [repeat constructor|]. vm_compute. reflexivity.
Qed.
Lemma ex_find : exists (s : fstate (string * nat)), body_fields s 0 [("T", 1); ("c", 6)] /\ 0 < List.length (f_pvar s) /\
  (exists f, In f [("T", 1); ("c", 6)] /\ ex_name f = "c") /\ (forall f, In f [("T", 1); ("c", 6)] -> ex_name f <> "zz").
Proof.
  destruct ex_lives as (s1 & r1 & _ & _ & _ & _ & E & _). exists s1. vm_compute in E. injection E as <- <-. split; [do 3 eexists; repeat split|]. split; [cbn; lia|].
  split; [exists ("c", 6); cbn; auto|]. intros f [<-|[<-|[]]]; discriminate.
Qed.
