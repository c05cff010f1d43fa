(** Runs of the library writer. *)
From Coq Require Import ZArith List Bool Ascii String Permutation Lia.
From Verif Require Import Model.Outcome Model.Stream Model.SeriesIO Model.Lw Model.LwText Model.LwMain Spec.Vtk Spec.SeriesIO Spec.Lw Spec.LwText Spec.LwMain.
From Verif Require Import Proofs.StreamP Proofs.SeriesIOP Proofs.LwP Proofs.LwGenP Proofs.LwTextP Proofs.LwLibP.
Import ListNotations.

(** *** Files *)
Lemma text_eqb_same : forall t, text_eqb t t = true.
Proof. intros t. now apply text_eqb_eq. Qed.
Lemma file_put_same : forall name t d, file_at name d <> Some None -> file_at name (file_put name t d) = Some (Some t).
Proof.
  intros name t d. induction d as [|[n x] d IH]; cbn; intros H.
  - now rewrite text_eqb_same.
  - destruct (text_eqb n name) eqn:E; cbn; rewrite E; [destruct x; congruence | auto].
Qed.
Lemma file_put_other : forall name name' t d, name' <> name -> file_at name' (file_put name t d) = file_at name' d.
Proof.
  intros name name' t d N. induction d as [|[n x] d IH]; cbn.
  - destruct (text_eqb name name') eqn:E; auto. apply text_eqb_eq in E. congruence.
  - destruct (text_eqb n name) eqn:E; cbn.
    + apply text_eqb_eq in E. subst n. destruct (text_eqb name name') eqn:E; auto. apply text_eqb_eq in E. congruence.
    + now rewrite IH.
Qed.
Lemma file_put_filter : forall (p : text -> bool) name t d, p name = false -> filter (fun fc => p (fst fc)) (file_put name t d) = filter (fun fc => p (fst fc)) d.
Proof.
  intros p name t d N. induction d as [|[n x] d IH]; cbn; [now rewrite N|].
  destruct (text_eqb n name) eqn:E; cbn; [apply text_eqb_eq in E; subst n; now rewrite N | now rewrite IH].
Qed.

Lemma write_dir : forall loc name t dk, dk_dir (write_file loc name t dk) = dk_dir dk.
Proof. intros. unfold write_file. destruct (dk_dir dk loc); auto. Qed.
Lemma write_there : forall loc name t dk dirs, all_there (write_file loc name t dk) dirs <-> all_there dk dirs.
Proof. intros. unfold all_there. now rewrite write_dir. Qed.
Lemma write_lookup : forall loc name t dk, dk_dir dk loc <> None -> lookup dk loc name <> Some None -> lookup (write_file loc name t dk) loc name = Some (Some t).
Proof.
  intros loc name t dk H N. unfold lookup in *. rewrite write_dir. unfold write_file. destruct (dk_dir dk loc) as [k|]; [|congruence]. cbn. rewrite Nat.eqb_refl.
  now apply file_put_same.
Qed.
Lemma write_other : forall loc name t dk path name', ~ (dk_dir dk path = dk_dir dk loc /\ name' = name) -> lookup (write_file loc name t dk) path name' = lookup dk path name'.
Proof.
  intros loc name t dk path name' N. unfold lookup. rewrite write_dir. destruct (dk_dir dk path) as [k|] eqn:E; auto. unfold write_file. destruct (dk_dir dk loc) as [j|] eqn:F; auto. cbn.
  destruct (Nat.eqb k j) eqn:K; auto. apply Nat.eqb_eq in K. subst j. apply file_put_other. intros ->. auto.
Qed.
Lemma write_again : forall loc name t t' dk path name', lookup (write_file loc name t' (write_file loc name t dk)) path name' = lookup (write_file loc name t' dk) path name'.
Proof.
  intros loc name t t' dk path name'. destruct (dk_dir dk loc) as [k|] eqn:E; [|unfold write_file at 1; rewrite write_dir, E; unfold write_file; now rewrite E].
  unfold lookup. rewrite !write_dir. destruct (dk_dir dk path) as [j|]; auto. unfold write_file. rewrite E. cbn. rewrite E. cbn. destruct (Nat.eqb j k) eqn:J; cbn; auto. rewrite Nat.eqb_refl.
  induction (dk_files dk k) as [|[n x] d IH]; cbn.
  - now rewrite text_eqb_same.
  - destruct (text_eqb n name) eqn:N; cbn; rewrite N; cbn; [destruct x; auto | destruct (text_eqb n name'); auto].
Qed.
Lemma write_headers : forall loc name t dk dirs, is_generated_header name = false -> headers (write_file loc name t dk) dirs = headers dk dirs.
Proof.
  intros loc name t dk dirs N. unfold headers. apply flat_map_ext. intros d. rewrite write_dir. destruct (dk_dir dk d) as [k|] eqn:E; auto.
  unfold write_file. destruct (dk_dir dk loc) as [j|]; auto. cbn. destruct (Nat.eqb k j) eqn:K; auto. apply Nat.eqb_eq in K. subst j. now apply file_put_filter.
Qed.

(** *** Scanning *)
Definition listed (order : folder -> folder) (dk : disk) (dirs : list text) : list (text * option text) :=
  flat_map (fun d => match dk_dir dk d with Some k => filter (fun fc => is_generated_header (fst fc)) (order (dk_files dk k)) | None => [] end) dirs.
Lemma filter_perm : forall (A : Type) (p : A -> bool) l l', Permutation l l' -> Permutation (filter p l) (filter p l').
Proof.
  intros A p l l' H. induction H; cbn; auto.
  - destruct (p x); auto.
  - destruct (p x), (p y); auto. apply perm_swap.
  - eapply Permutation_trans; eauto.
Qed.
Lemma listed_perm : forall order dk dirs, any_order order -> Permutation (listed order dk dirs) (headers dk dirs).
Proof.
  intros order dk dirs O. unfold listed, headers. induction dirs as [|d ds IH]; cbn; auto. apply Permutation_app; auto. destruct (dk_dir dk d); auto. apply filter_perm, O.
Qed.
Lemma mfor_app : forall (S A : Type) (f : A -> M S unit) a b c, mfor (a ++ b) f c = (mfor a f ;;; mfor b f) c.
Proof.
  intros S A f a b. induction a as [|x a IH]; intros c; cbn; auto. unfold mbind. destruct (f x c) as [s u|s e| | |]; auto. rewrite IH. reflexivity.
Qed.
Lemma scan_ok : forall fuel order dk dirs c, all_there dk dirs -> scan_dirs fuel order dk dirs c = collect fuel (listed order dk dirs) c.
Proof.
  intros fuel order dk dirs. unfold listed, collect. induction dirs as [|d ds IH]; intros c H; cbn; auto.
  rewrite mfor_app. destruct (dk_dir dk d) as [k|] eqn:E; [|exfalso; apply (H d); cbn; auto].
  unfold mbind at 1 2. unfold collect. destruct (mfor _ _ c) as [s []| | | |]; auto. apply IH. intros x Hx. apply H. now right.
Qed.
Lemma scan_missing : forall fuel order dk dirs, ~ all_there dk dirs -> exists dirs1 d dirs2, dirs = dirs1 ++ d :: dirs2 /\ all_there dk dirs1 /\ dk_dir dk d = None /\
  forall c, scan_dirs fuel order dk dirs c = match collect fuel (listed order dk dirs1) c with RRet c' _ => RThrow c' RuntimeError | r => r end.
Proof.
  intros fuel order dk dirs. induction dirs as [|d ds IH]; intros H; [exfalso; apply H; intros x []|].
  destruct (dk_dir dk d) as [k|] eqn:E.
  - destruct IH as (d1 & x & d2 & -> & A & B & C); [intros K; apply H; intros y [<-|Hy]; [congruence|auto]|].
    exists (d :: d1), x, d2. split; auto. split; [intros y [<-|Hy]; [congruence|auto]|]. split; auto. intros c. cbn [listed flat_map scan_dirs]. rewrite E. unfold collect. rewrite mfor_app.
    unfold mbind at 1 2. destruct (mfor _ _ c) as [s []| | | |]; auto. rewrite C. reflexivity.
  - exists [], d, ds. split; auto. split; [intros x []|]. split; auto. intros c. cbn. rewrite E. reflexivity.
Qed.

Lemma log_ok : forall c es, holds_entries c es -> exists t, log_text c = Ok t.
Proof.
  intros c es H. unfold log_text.
  rewrite (for_types_ok _ c _ (fun it ot =>
    ln (it ++ txt ", " ++ ot ++ txt ": ") ++ ln (txt "  PSimpleBase: " ++ vector_text (names_at TSimple c it ot)) ++ [nl] ++ ln (txt "  PFuncBase: " ++ vector_text (names_at TFunc c it ot)) ++ [nl] ++
        ln (txt "  PPieceWiseSimpleBase: " ++ vector_text (names_at TPwSimple c it ot)) ++ [nl] ++ ln (txt "  PPieceWiseFuncBase: " ++ vector_text (names_at TPwFunc c it ot)) ++ [nl] ++
        ln (txt "  PBasisSets: " ++ vector_text (names_at TBasis c it ot)) ++ [nl])).
  - cbn [obind]. eauto.
  - intros i j it ot Ei Eo.
    destruct (cell_at c es TSimple i j it ot H Ei Eo) as [-> _]. destruct (cell_at c es TFunc i j it ot H Ei Eo) as [-> _]. destruct (cell_at c es TPwSimple i j it ot H Ei Eo) as [-> _].
    destruct (cell_at c es TPwFunc i j it ot H Ei Eo) as [-> _]. destruct (cell_at c es TBasis i j it ot H Ei Eo) as [-> _]. reflexivity.
Qed.

(** *** The library of the entries *)
Lemma provided_perm : forall var es es' s, Permutation es es' -> provided var es s -> provided var es' s.
Proof. intros var es es' s P (n & [[A B]|(A & B & C)]); exists n; [left|right]; repeat split; auto; eapply Permutation_in; eauto. Qed.
Lemma declares_perm : forall var es es' t, Permutation es es' -> declares_library var es t -> declares_library var es' t.
Proof.
  intros var es es' t P (ds & E & A & B). exists ds. split; auto. split.
  - intros s H. apply A. eapply provided_perm; [apply Permutation_sym|]; eauto.
  - intros p H. destruct (B p H) as (s & G & K). exists s. split; auto. eapply provided_perm; eauto.
Qed.
Lemma defines_perm : forall var es es' t, Permutation es es' -> defines_library var es t -> defines_library var es' t.
Proof.
  intros var es es' t P (ds & E & A & B & C). exists ds. split; auto. split; [|split].
  - intros s H. apply A. eapply provided_perm; [apply Permutation_sym|]; eauto.
  - intros s n x H. apply B. eapply offered_perm; [apply Permutation_refl | apply Permutation_sym |]; eauto.
  - intros d n H. destruct (C d n H) as (s & G & K & L). exists s. split; [eapply provided_perm; eauto|]. split; auto. destruct L as [L|(x & b & L1 & L2 & L3)]; auto.
    right. exists x, b. split; auto. split; auto. eapply offered_perm; [apply Permutation_refl | |]; eauto.
Qed.
Lemma writable_perm : forall var es es', Permutation es es' -> writable_library var es -> writable_library var es'.
Proof.
  intros var es es' P [A B C]. split; auto.
  - intros t it ot n H. eapply A, Permutation_in; [apply Permutation_sym|]; eauto.
  - intros s n x H. eapply B, offered_perm; [apply Permutation_refl | apply Permutation_sym |]; eauto.
Qed.
Lemma Forall2_in_l : forall (A B : Type) (R : A -> B -> Prop) l l' a, Forall2 R l l' -> In a l -> exists b, In b l' /\ R a b.
Proof. intros A B R l l' a H. induction H as [|x y l l' Hxy H IH]; intros G; [destruct G|]. destruct G as [<-|G]; [exists y; cbn; auto|]. destruct (IH G) as (b & K & L). exists b. cbn. auto. Qed.
Lemma Forall2_in_r : forall (A B : Type) (R : A -> B -> Prop) l l' b, Forall2 R l l' -> In b l' -> exists a, In a l /\ R a b.
Proof. intros A B R l l' b H. induction H as [|x y l l' Hxy H IH]; intros G; [destruct G|]. destruct G as [<-|G]; [exists x; cbn; auto|]. destruct (IH G) as (a & K & L). exists a. cbn. auto. Qed.

Lemma offered_provided : forall var es s n x, offered var es s n x -> provided var es s.
Proof. intros var es s n x [A B|A B C]; exists n; [left|right]; auto. Qed.

Lemma library_written : forall fs fuel c var st, enough fuel fs -> collect fuel fs coll_empty = RRet c tt -> writable_library var (all_entries fs) ->
  Forall one_line [st_created st; st_version st; st_url st; st_commit st] -> Forall (fun f => one_line (fst f)) fs ->
  exists ht src, header_text st var c = Ok ht /\ source_text st var c = Ok src /\ declares_library var (all_entries fs) ht /\ defines_library var (all_entries fs) src.
Proof.
  intros fs fuel c var st [H0 Hf] E W St Fs. destruct (library_spec fs fuel c var Hf H0 E) as (sigs & defs & Wh & Ws & Es).
  destruct (library_text fs fuel c var st sigs defs Hf H0 E Wh Ws W St Fs) as (ht & src & ds & fds & Eh & Esrc & Rh & F1 & Rs & F2).
  assert (D := fun s => declared_iff fs fuel c var sigs s Hf H0 E Wh). destruct (checkout_spec fs fuel c var defs Hf H0 E Ws) as [Q1 Q2].
  exists ht, src. split; auto. split; auto. split.
  - exists ds. split; auto. split.
    + intros s Hs. apply D in Hs. eapply Forall2_in_l; eauto.
    + intros p Hp. destruct (Forall2_in_r _ _ _ _ _ p F1 Hp) as (s & Hs & R). exists s. split; auto. now apply D.
  - exists fds. split; auto. split; [|split].
    + intros s Hs. apply D in Hs. rewrite <- Es in Hs. apply in_map_iff in Hs. destruct Hs as (f & <- & Hf1). destruct (Forall2_in_l _ _ _ _ _ f F2 Hf1) as (d & Hd & R). exists d. split; auto. apply R.
    + intros s n x Hx. destruct (Q1 s n x Hx) as (f & Hf1 & <- & R). destruct (Forall2_in_l _ _ _ _ _ f F2 Hf1) as (d & Hd & Rd). destruct (call_same f d n Rd) as [C1 _].
      destruct (C1 x R) as (b & B1 & B2). exists d, b. split; auto. split; [apply Rd|]. auto.
    + intros d n Hd. destruct (Forall2_in_r _ _ _ _ _ d F2 Hd) as (f & Hf1 & Rd). exists (ck_sig f). split; [apply D; rewrite <- Es; now apply in_map|]. split; [apply Rd|].
      destruct (call_same f d n Rd) as [C1 C2]. destruct (Q2 f n Hf1) as [(x & R & O)|R]; [right|left; auto]. destruct (C1 x R) as (b & B1 & B2). exists x, b. auto.
Qed.

(** *** Time *)
Lemma decimal_line : forall t n, decimal t n -> one_line t.
Proof.
  intros t n H. induction H as [d Hd|t n d H IH Hd].
  - intros [E|[]]. assert (d = 0 \/ d = 1 \/ d = 2 \/ d = 3 \/ d = 4 \/ d = 5 \/ d = 6 \/ d = 7 \/ d = 8 \/ d = 9)%Z as C by lia.
    repeat (destruct C as [->|C]; [discriminate E|]). subst d. discriminate E.
  - intros G. apply in_app_iff in G. destruct G as [G|[E|[]]]; [now apply IH|].
    assert (d = 0 \/ d = 1 \/ d = 2 \/ d = 3 \/ d = 4 \/ d = 5 \/ d = 6 \/ d = 7 \/ d = 8 \/ d = 9)%Z as C by lia.
    repeat (destruct C as [->|C]; [discriminate E|]). subst d. discriminate E.
Qed.
Lemma print_line_one : forall z, one_line (print_int z).
Proof.
  intros z. destruct (print_int_ok z) as [t n H|t n H]; [eapply decimal_line; eauto|]. intros [E|G]; [discriminate E|]. exact (decimal_line _ _ H G).
Qed.
Lemma one_line_app : forall a b, one_line a -> one_line b -> one_line (a ++ b).
Proof. intros a b A B G. apply in_app_iff in G. destruct G; auto. Qed.
Lemma now_one_line : forall t, one_line (now_text t).
Proof.
  assert (P : forall z, one_line (padded z)).
  { intros z. unfold padded. destruct (Z.ltb z 10); [apply one_line_app|]; try apply print_line_one. now apply one_lineb_ok. }
  intros t. unfold now_text. repeat (first [apply print_line_one | apply P | apply one_lineb_ok; reflexivity | apply one_line_app]).
Qed.

(** *** Runs *)
Lemma enough_perm : forall fuel fs fs', (forall x, In x fs' -> In x fs) -> enough fuel fs -> enough fuel fs'.
Proof. intros fuel fs fs' P [A B]. split; auto. intros f t H. apply (B f t). now apply P. Qed.

Lemma entries_perm : forall fs fs', Permutation fs fs' -> Permutation (all_entries fs) (all_entries fs').
Proof. intros. now apply Permutation_flat_map. Qed.

Lemma headers_incl : forall dk dirs dirs', (forall d, In d dirs -> In d dirs') -> forall x, In x (headers dk dirs) -> In x (headers dk dirs').
Proof. intros dk dirs dirs' H x G. unfold headers in *. apply in_flat_map in G. apply in_flat_map. destruct G as (d & A & B). eauto. Qed.
Lemma entries_app : forall a b, all_entries (a ++ b) = all_entries a ++ all_entries b.
Proof. intros. apply flat_map_app. Qed.

Lemma nodup_front : forall (A : Type) (a b : list A), NoDup (a ++ b) -> NoDup a.
Proof.
  intros A a b. induction a as [|x a IH]; intros H; [constructor|]. inversion H as [|? ? H1 H2]; subst. constructor; [|now apply IH]. intros G. apply H1. apply in_app_iff. auto.
Qed.
Section Step.
Context (fuel : nat) (o : options) (name : text) (order : folder -> folder) (write : coll -> outcome text) (dk : disk).
Context (Hn : is_generated_header name = false) (Ho : any_order order) (He : enough fuel (headers dk (op_dirs o))).
Let dk1 := write_file (op_location o) name [] dk.

Lemma step_ok : all_there dk (op_dirs o) -> NoDup (all_entries (headers dk (op_dirs o))) ->
  exists fs c, Permutation fs (headers dk (op_dirs o)) /\ enough fuel fs /\ collect fuel fs coll_empty = RRet c tt /\
    forall t, write c = Ok t -> lw_write fuel o name order write dk = (write_file (op_location o) name t dk1, Finished).
Proof.
  intros A N. assert (P : Permutation (listed order dk1 (op_dirs o)) (headers dk (op_dirs o))).
  { eapply Permutation_trans; [now apply listed_perm|]. unfold dk1. now rewrite write_headers. }
  assert (F : enough fuel (listed order dk1 (op_dirs o))) by (eapply enough_perm; [|exact He]; intros x Hx; eapply Permutation_in; eauto).
  destruct F as [H0 Hf]. destruct (collect_spec (listed order dk1 (op_dirs o)) fuel Hf H0) as [[G _]|[_ (c & G & H & _)]].
  - exfalso. apply G. eapply Permutation_NoDup; [|exact N]. apply entries_perm. now apply Permutation_sym.
  - exists (listed order dk1 (op_dirs o)), c. split; auto. split; [split; auto|]. split; auto. intros t Et. unfold lw_write. fold dk1. rewrite scan_ok by (unfold dk1; now apply write_there). rewrite G.
    destruct (log_ok c _ H) as (l & ->). cbn [obind]. now rewrite Et.
Qed.
Lemma step_twice : all_there dk (op_dirs o) -> ~ NoDup (all_entries (headers dk (op_dirs o))) -> lw_write fuel o name order write dk = (dk1, Exited).
Proof.
  intros A N. assert (P : Permutation (listed order dk1 (op_dirs o)) (headers dk (op_dirs o))).
  { eapply Permutation_trans; [now apply listed_perm|]. unfold dk1. now rewrite write_headers. }
  assert (F : enough fuel (listed order dk1 (op_dirs o))) by (eapply enough_perm; [|exact He]; intros x Hx; eapply Permutation_in; eauto).
  destruct F as [H0 Hf]. destruct (collect_spec (listed order dk1 (op_dirs o)) fuel Hf H0) as [[_ G]|[G _]].
  - unfold lw_write. fold dk1. rewrite scan_ok by (unfold dk1; now apply write_there). now rewrite G.
  - exfalso. apply N. eapply Permutation_NoDup; [|exact G]. now apply entries_perm.
Qed.
Lemma step_missing : ~ all_there dk (op_dirs o) -> exists r, lw_write fuel o name order write dk = (dk1, r) /\ (r = Terminated \/ r = Exited) /\
  (NoDup (all_entries (headers dk (op_dirs o))) -> r = Terminated).
Proof.
  intros A. assert (A' : ~ all_there dk1 (op_dirs o)) by (unfold dk1; now rewrite write_there).
  destruct (scan_missing fuel order dk1 (op_dirs o) A') as (d1 & d & d2 & E & A1 & _ & S).
  assert (P : Permutation (listed order dk1 d1) (headers dk d1)).
  { eapply Permutation_trans; [now apply listed_perm|]. unfold dk1. now rewrite write_headers. }
  assert (F : enough fuel (listed order dk1 d1)).
  { eapply enough_perm; [|exact He]. intros x Hx. apply (Permutation_in _ P) in Hx. eapply headers_incl; [|exact Hx]. intros y Hy. rewrite E. apply in_app_iff. auto. }
  destruct F as [H0 Hf]. unfold lw_write. fold dk1. rewrite S. destruct (collect_spec (listed order dk1 d1) fuel Hf H0) as [[N G]|[_ (c & G & _)]]; rewrite G.
  - exists Exited. split; auto. split; auto. intros K. exfalso. apply N. eapply Permutation_NoDup; [apply entries_perm, Permutation_sym, P|].
    rewrite E in K. unfold headers in K. rewrite flat_map_app, entries_app in K. now apply nodup_front in K.
  - exists Terminated. auto.
Qed.
End Step.

Lemma not_scanned : is_generated_header (txt "PLibrary.hh") = false /\ is_generated_header (txt "PLibrary.cc") = false /\ is_generated_header (txt "PExtern.cc") = false.
Proof. repeat split; reflexivity. Qed.

Lemma unchanged_write : forall loc names name t dk dk', In name names -> unchanged_but loc names dk dk' -> unchanged_but loc names dk (write_file loc name t dk').
Proof.
  intros loc names name t dk dk' Hn [A B]. split; [now rewrite write_dir|]. intros path n' H. rewrite write_other; auto. rewrite A. intros [K ->]. apply H. auto.
Qed.
Lemma unchanged_refl : forall loc names dk, unchanged_but loc names dk dk.
Proof. intros. split; auto. Qed.

(** A run that finds everything and no class twice. *)
Lemma run_ok : forall fuel e o dk, setting_ok e -> enough fuel (headers dk (op_dirs o)) ->
  all_there dk (op_dirs o) -> NoDup (all_entries (headers dk (op_dirs o))) ->
  writable_library (op_vars o) (all_entries (headers dk (op_dirs o))) -> Forall (fun f => one_line (fst f)) (headers dk (op_dirs o)) ->
  exists ht src, let dk' := write_file (op_location o) (txt "PLibrary.cc") src (write_file (op_location o) (txt "PLibrary.cc") []
      (write_file (op_location o) (txt "PLibrary.hh") ht (write_file (op_location o) (txt "PLibrary.hh") [] dk))) in
    lw_main fuel e o dk = (if op_compile o then write_file (op_location o) (txt "PExtern.cc") (se_extern e) dk' else dk', Finished) /\
    declares_library (op_vars o) (all_entries (headers dk (op_dirs o))) ht /\ defines_library (op_vars o) (all_entries (headers dk (op_dirs o))) src /\
    exists fs c, Permutation fs (headers dk (op_dirs o)) /\ enough fuel fs /\ collect fuel fs coll_empty = RRet c tt /\ source_text (stamp_at e (se_time2 e)) (op_vars o) c = Ok src.
Proof.
  intros fuel e o dk [O1 O2 S1 S2 S3] He A N W L. destruct not_scanned as (Nh & Nc & _).
  assert (St : forall t, Forall one_line [st_created (stamp_at e t); st_version (stamp_at e t); st_url (stamp_at e t); st_commit (stamp_at e t)]).
  { intros t. repeat constructor; auto. apply now_one_line. }
  destruct (step_ok fuel o (txt "PLibrary.hh") (se_order1 e) (header_text (stamp_at e (se_time1 e)) (op_vars o)) dk Nh O1 He A N) as (fs & c & P & F & C & G).
  assert (PE := entries_perm _ _ P). assert (PE' := Permutation_sym PE).
  destruct (library_written fs fuel c (op_vars o) (stamp_at e (se_time1 e)) F C (writable_perm _ _ _ PE' W) (St _) ltac:(apply Forall_forall; intros x Hx; rewrite Forall_forall in L; apply L; eapply Permutation_in; eauto))
    as (ht & src0 & Eh & _ & Dh & _).
  set (dkh := write_file (op_location o) (txt "PLibrary.hh") ht (write_file (op_location o) (txt "PLibrary.hh") [] dk)) in *.
  assert (Hh : headers dkh (op_dirs o) = headers dk (op_dirs o)) by (unfold dkh; now rewrite !write_headers).
  assert (Ah : all_there dkh (op_dirs o)) by (unfold dkh; now rewrite !write_there).
  destruct (step_ok fuel o (txt "PLibrary.cc") (se_order2 e) (source_text (stamp_at e (se_time2 e)) (op_vars o)) dkh Nc O2) as (fs2 & c2 & P2 & F2 & C2 & G2); rewrite ?Hh in *; auto.
  assert (PE2 := entries_perm _ _ P2). assert (PE2' := Permutation_sym PE2).
  destruct (library_written fs2 fuel c2 (op_vars o) (stamp_at e (se_time2 e)) F2 C2 (writable_perm _ _ _ PE2' W) (St _) ltac:(apply Forall_forall; intros x Hx; rewrite Forall_forall in L; apply L; eapply Permutation_in; eauto))
    as (ht0 & src & _ & Es & _ & Ds).
  exists ht, src. cbn zeta. split; [|split; [|split]].
  - unfold lw_main. rewrite (G ht Eh). fold dkh. rewrite (G2 src Es). reflexivity.
  - exact (declares_perm _ _ _ _ PE Dh).
  - exact (defines_perm _ _ _ _ PE2 Ds).
  - exists fs2, c2. auto.
Qed.

Lemma in_outputs : forall o, In (txt "PLibrary.hh") (outputs o) /\ In (txt "PLibrary.cc") (outputs o) /\ (op_compile o = true -> In (txt "PExtern.cc") (outputs o)).
Proof. intros o. unfold outputs. destruct (op_compile o); cbn; intuition congruence. Qed.

Lemma lw_finishes : forall fuel e o dk, setting_ok e -> enough fuel (headers dk (op_dirs o)) -> can_write o dk ->
  all_there dk (op_dirs o) -> NoDup (all_entries (headers dk (op_dirs o))) ->
  writable_library (op_vars o) (all_entries (headers dk (op_dirs o))) -> Forall (fun f => one_line (fst f)) (headers dk (op_dirs o)) ->
  exists dk' ht src, lw_main fuel e o dk = (dk', Finished) /\
    lookup dk' (op_location o) (txt "PLibrary.hh") = Some (Some ht) /\ declares_library (op_vars o) (all_entries (headers dk (op_dirs o))) ht /\
    lookup dk' (op_location o) (txt "PLibrary.cc") = Some (Some src) /\ defines_library (op_vars o) (all_entries (headers dk (op_dirs o))) src /\
    (op_compile o = true -> lookup dk' (op_location o) (txt "PExtern.cc") = Some (Some (se_extern e))) /\
    unchanged_but (op_location o) (outputs o) dk dk'.
Proof.
  intros fuel e o dk Se He [L1 L2] A N W L. destruct (run_ok fuel e o dk Se He A N W L) as (ht & src & E & D1 & D2 & _). cbn zeta in E.
  destruct (in_outputs o) as (I1 & I2 & I3). set (loc := op_location o) in *.
  set (dk1 := write_file loc (txt "PLibrary.hh") [] dk) in *. set (dk2 := write_file loc (txt "PLibrary.hh") ht dk1) in *.
  set (dk3 := write_file loc (txt "PLibrary.cc") [] dk2) in *. set (dk4 := write_file loc (txt "PLibrary.cc") src dk3) in *.
  assert (V1 : dk_dir dk1 = dk_dir dk) by apply write_dir. assert (V2 : dk_dir dk2 = dk_dir dk) by (unfold dk2; now rewrite write_dir).
  assert (V3 : dk_dir dk3 = dk_dir dk) by (unfold dk3; now rewrite write_dir). assert (V4 : dk_dir dk4 = dk_dir dk) by (unfold dk4; now rewrite write_dir).
  assert (X1 : lookup dk2 loc (txt "PLibrary.hh") = Some (Some ht)).
  { unfold dk2. apply write_lookup; [now rewrite V1|]. unfold dk1. rewrite write_lookup; auto. discriminate. }
  assert (X4 : lookup dk4 loc (txt "PLibrary.hh") = Some (Some ht)).
  { unfold dk4, dk3. rewrite !write_other; auto; intros [_ K]; discriminate K. }
  assert (Y2 : lookup dk2 loc (txt "PLibrary.cc") = lookup dk loc (txt "PLibrary.cc")) by (unfold dk2, dk1; rewrite !write_other; auto; intros [_ K]; discriminate K).
  assert (Y4 : lookup dk4 loc (txt "PLibrary.cc") = Some (Some src)).
  { unfold dk4. apply write_lookup; [now rewrite V3|]. unfold dk3. rewrite write_lookup; [discriminate|now rewrite V2|]. rewrite Y2. auto. }
  assert (U4 : unchanged_but loc (outputs o) dk dk4) by (unfold dk4, dk3, dk2, dk1; repeat apply unchanged_write; auto; apply unchanged_refl).
  destruct (op_compile o) eqn:Ec.
  - exists (write_file loc (txt "PExtern.cc") (se_extern e) dk4), ht, src. split; auto. split; [rewrite write_other; auto; intros [_ K]; discriminate K|]. split; auto.
    split; [rewrite write_other; auto; intros [_ K]; discriminate K|]. split; auto. split.
    + intros _. apply write_lookup; [now rewrite V4|]. unfold dk4, dk3, dk2, dk1. rewrite !write_other by (intros [_ K]; discriminate K). auto.
    + apply unchanged_write; auto.
  - exists dk4, ht, src. split; auto. split; auto. split; auto. split; auto. split; auto. split; auto. discriminate.
Qed.

(** A location that is not there. *)
Lemma lw_nowhere : forall fuel e o dk, setting_ok e -> enough fuel (headers dk (op_dirs o)) -> dk_dir dk (op_location o) = None ->
  all_there dk (op_dirs o) -> NoDup (all_entries (headers dk (op_dirs o))) ->
  writable_library (op_vars o) (all_entries (headers dk (op_dirs o))) -> Forall (fun f => one_line (fst f)) (headers dk (op_dirs o)) ->
  lw_main fuel e o dk = (dk, Finished).
Proof.
  intros fuel e o dk Se He L1 A N W L. destruct (run_ok fuel e o dk Se He A N W L) as (ht & src & E & _). cbn zeta in E. rewrite E.
  assert (K : forall n t, write_file (op_location o) n t dk = dk) by (intros; unfold write_file; now rewrite L1). rewrite !K. now destruct (op_compile o).
Qed.

(** A class declared twice, a directory missing. *)
Lemma lw_twice : forall fuel e o dk, setting_ok e -> enough fuel (headers dk (op_dirs o)) -> can_write o dk -> all_there dk (op_dirs o) -> ~ NoDup (all_entries (headers dk (op_dirs o))) ->
  exists dk', lw_main fuel e o dk = (dk', Exited) /\ lookup dk' (op_location o) (txt "PLibrary.hh") = Some (Some []) /\ unchanged_but (op_location o) [txt "PLibrary.hh"] dk dk'.
Proof.
  intros fuel e o dk [O1 O2 S1 S2 S3] He [L1 L2] A N. destruct not_scanned as (Nh & _). destruct (in_outputs o) as (I1 & _).
  exists (write_file (op_location o) (txt "PLibrary.hh") [] dk). unfold lw_main. rewrite step_twice; auto. split; auto. split; [apply write_lookup; auto|].
  apply unchanged_write; [cbn; auto|apply unchanged_refl].
Qed.
Lemma lw_missing : forall fuel e o dk, setting_ok e -> enough fuel (headers dk (op_dirs o)) -> can_write o dk -> ~ all_there dk (op_dirs o) ->
  exists dk' r, lw_main fuel e o dk = (dk', r) /\ (r = Terminated \/ r = Exited) /\ (NoDup (all_entries (headers dk (op_dirs o))) -> r = Terminated) /\
    lookup dk' (op_location o) (txt "PLibrary.hh") = Some (Some []) /\ unchanged_but (op_location o) [txt "PLibrary.hh"] dk dk'.
Proof.
  intros fuel e o dk [O1 O2 S1 S2 S3] He [L1 L2] A. destruct not_scanned as (Nh & _). destruct (in_outputs o) as (I1 & _).
  destruct (step_missing fuel o (txt "PLibrary.hh") (se_order1 e) (header_text (stamp_at e (se_time1 e)) (op_vars o)) dk Nh O1 He A) as (r & E & R & T).
  exists (write_file (op_location o) (txt "PLibrary.hh") [] dk), r. unfold lw_main. rewrite E. split; [destruct R; subst; auto|]. split; auto. split; auto. split; [apply write_lookup; auto|].
  apply unchanged_write; [cbn; auto|apply unchanged_refl].
Qed.

(** The files written are not scanned. *)
Lemma write_chain : forall fuel o name order write dk dirs, is_generated_header name = false -> headers (fst (lw_write fuel o name order write dk)) dirs = headers dk dirs.
Proof.
  intros fuel o name order write dk dirs N. unfold lw_write.
  destruct (scan_dirs fuel order (write_file (op_location o) name [] dk) (op_dirs o) coll_empty) as [c u|c x| | |]; cbn [fst]; try now apply write_headers.
  destruct (let* _ := log_text c in write c); cbn [fst]; rewrite ?write_headers; auto.
Qed.
Lemma no_feedback : forall fuel e o dk dirs, headers (fst (lw_main fuel e o dk)) dirs = headers dk dirs.
Proof.
  intros fuel e o dk dirs. destruct not_scanned as (N1 & N2 & N3). unfold lw_main.
  assert (K1 := write_chain fuel o (txt "PLibrary.hh") (se_order1 e) (header_text (stamp_at e (se_time1 e)) (op_vars o)) dk dirs N1).
  destruct (lw_write fuel o (txt "PLibrary.hh") (se_order1 e) (header_text (stamp_at e (se_time1 e)) (op_vars o)) dk) as [dk1 [| | |r|]]; cbn [fst] in *; auto. rewrite <- K1.
  assert (K2 := write_chain fuel o (txt "PLibrary.cc") (se_order2 e) (source_text (stamp_at e (se_time2 e)) (op_vars o)) dk1 dirs N2).
  destruct (lw_write fuel o (txt "PLibrary.cc") (se_order2 e) (source_text (stamp_at e (se_time2 e)) (op_vars o)) dk1) as [dk2 [| | |r|]]; cbn [fst] in *; auto. rewrite <- K2.
  destruct (op_compile o); auto. now apply write_headers.
Qed.

(** When a run ends normally. *)
Lemma there_dec : forall dk dirs, all_there dk dirs \/ ~ all_there dk dirs.
Proof.
  intros dk dirs. induction dirs as [|d ds [IH|IH]]; [left; intros x []| |right; intros H; apply IH; intros x Hx; apply H; now right].
  destruct (dk_dir dk d) eqn:E; [left; intros x [<-|Hx]; [congruence|auto] | right; intros H; apply (H d); cbn; auto].
Qed.
Lemma lw_iff : forall fuel e o dk, setting_ok e -> enough fuel (headers dk (op_dirs o)) ->
  writable_library (op_vars o) (all_entries (headers dk (op_dirs o))) -> Forall (fun f => one_line (fst f)) (headers dk (op_dirs o)) ->
  (snd (lw_main fuel e o dk) = Finished <-> all_there dk (op_dirs o) /\ NoDup (all_entries (headers dk (op_dirs o)))) /\
  (snd (lw_main fuel e o dk) = Finished \/ snd (lw_main fuel e o dk) = Terminated \/ snd (lw_main fuel e o dk) = Exited).
Proof.
  intros fuel e o dk Se He W L. destruct not_scanned as (Nh & _). assert (He' := He). destruct He' as [H0 Hf].
  assert (D : NoDup (all_entries (headers dk (op_dirs o))) \/ ~ NoDup (all_entries (headers dk (op_dirs o)))) by (destruct (collect_spec _ fuel Hf H0) as [[G _]|[G _]]; auto).
  destruct (there_dec dk (op_dirs o)) as [A|A].
  - destruct D as [D|D].
    + destruct (run_ok fuel e o dk Se He A D W L) as (ht & src & E & _). cbn zeta in E. rewrite E. cbn. split; auto. split; auto.
    + destruct Se as [O1 O2 S1 S2 S3]. unfold lw_main. rewrite step_twice; auto. cbn. split; auto. split; [discriminate|intros [_ K]; contradiction].
  - destruct Se as [O1 O2 S1 S2 S3].
    destruct (step_missing fuel o (txt "PLibrary.hh") (se_order1 e) (header_text (stamp_at e (se_time1 e)) (op_vars o)) dk Nh O1 He A) as (r & E & R & T).
    unfold lw_main. rewrite E. destruct R as [->| ->]; cbn; (split; [split; [discriminate|intros [K _]; contradiction]|auto]).
Qed.

(** *** Includes *)
Definition ends_line (a : text) : Prop := a = [] \/ exists a', a = a' ++ [nl].
Lemma ends_ln : forall a s, ends_line (a ++ ln s).
Proof. intros a s. right. exists (a ++ s). unfold ln. now rewrite app_assoc. Qed.
Lemma ends_flat : forall (A : Type) (f : A -> text) l a, ends_line a -> ends_line (a ++ flat_map (fun x => ln (f x)) l).
Proof.
  intros A f l. induction l as [|x l IH]; intros a H; cbn; [now rewrite app_nil_r|]. rewrite app_assoc. apply IH, ends_ln.
Qed.
Lemma has_line_in : forall a l b, ends_line a -> has_line (a ++ ln l ++ b) l.
Proof. intros a l b H. exists a, b. split; auto. unfold ln. now rewrite <- app_assoc. Qed.
Lemma source_includes : forall st var c src f, source_text st var c = Ok src -> In f (co_file c) -> includes src f.
Proof.
  intros st var c src f E H. unfold source_text in E.
  repeat match type of E with (obind ?m _) = _ => destruct m as [?| | | |]; cbn [obind] in E; [|discriminate E..] end.
  assert (Ei : forall x y : text, Ok x = Ok y -> y = x) by (intros x y K; now injection K). apply Ei in E. subst src. apply in_split in H. destruct H as (l1 & l2 & ->). rewrite flat_map_app. cbn [flat_map]. unfold includes.
  match goal with |- has_line (?s ++ ?x1 ++ ?x2 ++ ?x3 ++ ?x4 ++ ?x5 ++ ?x6 ++ (?x7 ++ ln ?l ++ ?x9) ++ ?r) _ =>
    assert (Q : s ++ x1 ++ x2 ++ x3 ++ x4 ++ x5 ++ x6 ++ (x7 ++ ln l ++ x9) ++ r = ((s ++ x1 ++ x2 ++ x3 ++ x4 ++ x5 ++ x6) ++ x7) ++ ln l ++ x9 ++ r) by (now rewrite <- !app_assoc);
    rewrite Q; clear Q end.
  apply has_line_in. apply ends_flat. rewrite !app_assoc. apply ends_ln.
Qed.

Lemma file_at_in : forall f c d, NoDup (map fst d) -> In (f, c) d -> file_at f d = Some c.
Proof.
  intros f c d. induction d as [|[n x] d IH]; intros N H; [destruct H|]. cbn in *. inversion N as [|? ? N1 N2]; subst. destruct H as [[= -> ->]|H]; [now rewrite text_eqb_same|].
  destruct (text_eqb n f) eqn:E; auto. apply text_eqb_eq in E. subst n. exfalso. apply N1. now apply (in_map fst) in H.
Qed.
Lemma include_some : forall dk dirs f t, (forall d t', In d dirs -> lookup dk d f = Some (Some t') -> t' = t) -> (exists d, In d dirs /\ lookup dk d f = Some (Some t)) -> include_finds dk dirs f = Some t.
Proof.
  intros dk dirs f t U. induction dirs as [|d ds IH]; intros (x & H & G); [destruct H|]. cbn. destruct (lookup dk d f) as [[t'|]|] eqn:E.
  - f_equal. eapply U; [|exact E]. cbn. auto.
  - apply IH; [intros y t' Hy; apply U; now right|]. destruct H as [<-|H]; [congruence|eauto].
  - apply IH; [intros y t' Hy; apply U; now right|]. destruct H as [<-|H]; [congruence|eauto].
Qed.
Lemma lw_includes : forall fuel e o dk, setting_ok e -> enough fuel (headers dk (op_dirs o)) -> can_write o dk ->
  all_there dk (op_dirs o) -> NoDup (all_entries (headers dk (op_dirs o))) ->
  writable_library (op_vars o) (all_entries (headers dk (op_dirs o))) -> Forall (fun f => one_line (fst f)) (headers dk (op_dirs o)) -> names_agree dk o ->
  exists dk' src, lw_main fuel e o dk = (dk', Finished) /\ lookup dk' (op_location o) (txt "PLibrary.cc") = Some (Some src) /\
    forall t it ot n, In (t, it, ot, n) (all_entries (headers dk (op_dirs o))) ->
      exists f content, includes src f /\ include_finds dk' (op_location o :: op_dirs o) f = Some content /\ In (t, it, ot, n) (file_entries (f, Some content)).
Proof.
  intros fuel e o dk Se He Cw A N W L [Na Nf].
  destruct (lw_finishes fuel e o dk Se He Cw A N W L) as (dk' & ht & src & E & _ & _ & Es & _ & _ & U).
  destruct (run_ok fuel e o dk Se He A N W L) as (ht1 & src1 & E1 & _ & _ & fs & c & P & [F0 F1] & C & Et). cbn zeta in E1.
  assert (src1 = src).
  { rewrite E1 in E. apply (f_equal fst) in E. cbn [fst] in E. subst dk'. destruct Cw as [L1 L2]. destruct (in_outputs o) as (I1 & I2 & I3).
    set (loc := op_location o) in *. set (dk2 := write_file loc (txt "PLibrary.hh") ht1 (write_file loc (txt "PLibrary.hh") [] dk)) in *.
    assert (Y : lookup (write_file loc (txt "PLibrary.cc") src1 (write_file loc (txt "PLibrary.cc") [] dk2)) loc (txt "PLibrary.cc") = Some (Some src1)).
    { apply write_lookup; [rewrite write_dir; unfold dk2; now rewrite !write_dir|]. rewrite write_lookup; [discriminate|unfold dk2; now rewrite !write_dir|].
      unfold dk2. rewrite !write_other by (intros [_ K]; discriminate K). auto. }
    destruct (op_compile o); [rewrite write_other in Es by (intros [_ K]; discriminate K)|]; rewrite Y in Es; now injection Es. }
  subst src1. exists dk', src. split; auto. split; auto. intros t it ot n H.
  assert (H' := H). unfold all_entries in H'. apply in_flat_map in H'. destruct H' as ((f & [content|]) & Hfile & Hent); [|destruct Hent].
  exists f, content. split; [|split; [|exact Hent]].
  - eapply source_includes; eauto. destruct (collect_spec fs fuel F1 F0) as [[_ K]|[_ (c' & K & _ & _ & _ & K')]]; [congruence|]. assert (c' = c) by congruence. subst c'.
    apply K'. exists (f, Some content). split; [eapply Permutation_in; [apply Permutation_sym|]; eauto|]. split; auto. intros Z. rewrite Z in Hent. destruct Hent.
  - unfold headers in Hfile. apply in_flat_map in Hfile. destruct Hfile as (d & Hd & G). destruct (dk_dir dk d) as [k|] eqn:Ed; [|destruct G].
    apply filter_In in G. destruct G as [G Gh]. cbn [fst] in Gh.
    assert (S : forall p, lookup dk' p f = lookup dk p f).
    { intros p. apply U. intros [_ K]. destruct not_scanned as (N1 & N2 & N3). unfold outputs in K. destruct (op_compile o); cbn in K;
        repeat (destruct K as [K|K]; [subst f; vm_compute in Gh; discriminate Gh|]); destruct K. }
    assert (Ld : lookup dk d f = Some (Some content)) by (unfold lookup; rewrite Ed; apply file_at_in; auto; eapply Nf; eauto).
    apply include_some.
    + intros p t' Hp Hl. rewrite S in Hl. eapply (Na p d f t' content); eauto. now right.
    + exists d. split; [now right|]. now rewrite S.
Qed.

(** *** The text determines the time *)
Lemma print_decimal : forall z, (0 <= z)%Z -> decimal (print_int z) z.
Proof.
  intros z Hz. unfold print_int. cbn zeta. destruct (Z.ltb_spec z 0) as [L|L]; [lia|]. rewrite Z.abs_eq by lia. cbn [app].
  apply print_digits_ok; [|lia]. rewrite Nat2Z.inj_succ, Z2Nat.id by apply Z.log2_nonneg.
  destruct (Z.eq_dec z 0) as [-> |E]; [cbn; lia|]. destruct (Z.log2_spec z) as [_ H]; lia.
Qed.
Lemma padded_decimal : forall z, (0 <= z)%Z -> decimal (padded z) z.
Proof.
  intros z Hz. unfold padded. destruct (Z.ltb_spec z 10) as [L|L].
  - assert (C : (z = 0 \/ z = 1 \/ z = 2 \/ z = 3 \/ z = 4 \/ z = 5 \/ z = 6 \/ z = 7 \/ z = 8 \/ z = 9)%Z) by lia.
    assert (K : forall d, (0 <= d <= 9)%Z -> decimal ([numeral 0] ++ [numeral d]) d) by (intros d Hd; replace d with (10 * 0 + d)%Z at 2 by lia; apply DecMore; auto; apply DecDigit; lia).
    destruct C as [-> |[-> |[-> |[-> |[-> |[-> |[-> |[-> |[-> | ->]]]]]]]]]; match goal with |- decimal _ ?z => exact (K z ltac:(lia)) end.
  - now apply print_decimal.
Qed.
Lemma decimal_front : forall a n b m r r', decimal a n -> decimal b m -> no_digit r -> no_digit r' -> a ++ r = b ++ r' -> n = m /\ r = r'.
Proof.
  intros a n b m r r' A B R R' E. assert (S1 := scan_decimal a n r A R). rewrite E, (scan_decimal b m r' B R') in S1. injection S1 as -> ->. auto.
Qed.
Lemma now_injective : forall t t', later t -> later t' -> now_text t = now_text t' -> t = t'.
Proof.
  intros [y m d h n s] [y' m' d' h' n' s'] (A1 & A2 & A3 & A4 & A5 & A6) (B1 & B2 & B3 & B4 & B5 & B6) E. cbn [tm_year tm_mon tm_mday tm_hour tm_min tm_sec] in *.
  unfold now_text in E. cbn [tm_year tm_mon tm_mday tm_hour tm_min tm_sec] in E.
  apply decimal_front with (n := (y + 1900)%Z) (m := (y' + 1900)%Z) in E; try (apply print_decimal; lia); try exact I; try reflexivity. destruct E as [E1 E].
  injection E as E. apply decimal_front with (n := (m + 1)%Z) (m := (m' + 1)%Z) in E; try (apply print_decimal; lia); try exact I; try reflexivity. destruct E as [E2 E].
  injection E as E. apply decimal_front with (n := d) (m := d') in E; try (apply print_decimal; lia); try exact I; try reflexivity. destruct E as [E3 E].
  injection E as E. apply decimal_front with (n := h) (m := h') in E; try (apply print_decimal; lia); try exact I; try reflexivity. destruct E as [E4 E].
  injection E as E. apply decimal_front with (n := n) (m := n') in E; try (apply padded_decimal; lia); try exact I; try reflexivity. destruct E as [E5 E].
  injection E as E. assert (E6 : padded s ++ [] = padded s' ++ []) by now rewrite E.
  apply decimal_front with (n := s) (m := s') in E6; try (apply padded_decimal; lia); try exact I; try reflexivity. destruct E6 as [E6 _].
  f_equal; lia.
Qed.

(** *** Witnesses *)
Definition no_extern : text := txt "// PExtern".
Definition plain_setting : setting := mkSetting (fun d => d) (fun d => rev d) (mkTm 114 8 12 9 5 3) (mkTm 114 8 12 9 5 4) (txt "0.1") (txt "url") (txt "6eb6ccb") no_extern.
Lemma plain_ok : setting_ok plain_setting.
Proof.
  split; cbn; try (apply one_lineb_ok; reflexivity); intros d; [apply Permutation_refl | apply Permutation_sym, Permutation_rev].
Qed.
(** The library directory, which the library is written to. *)
Definition lib_disk : disk := mkDisk (fun p => if text_eqb p (txt "lib") then Some 0 else None) (fun _ => sample_lib ++ [(txt "PLibrary.hh", Some (txt "old")); (txt "notes", Some [])]).
Definition lib_options : options := mkOptions (txt "lib") [txt "lib"] sample_var true.
Lemma lib_headers : headers lib_disk (op_dirs lib_options) = sample_lib.
Proof. vm_compute. reflexivity. Qed.
Lemma lib_case : setting_ok plain_setting /\ enough 300 (headers lib_disk (op_dirs lib_options)) /\ can_write lib_options lib_disk /\ all_there lib_disk (op_dirs lib_options) /\
  NoDup (all_entries (headers lib_disk (op_dirs lib_options))) /\ writable_library sample_var (all_entries (headers lib_disk (op_dirs lib_options))) /\
  Forall (fun f => one_line (fst f)) (headers lib_disk (op_dirs lib_options)) /\ names_agree lib_disk lib_options.
Proof.
  rewrite lib_headers. split; [exact plain_ok|]. split; [split; [lia|exact sample_fuel]|]. split; [split; [discriminate|]|].
  { intros n H. unfold lib_options, outputs in H. cbn [op_compile app In] in H. destruct H as [<-|[<-|[<-|[]]]]; vm_compute; discriminate. }
  split; [intros d [<-|[]]; discriminate|]. split; [|split; [exact sample_writable|split; [exact (proj2 sample_lines)|]]].
  - rewrite sample_entries. repeat constructor; cbn; intuition discriminate.
  - split.
    + intros d d' f t t' _ Hd Hd'. assert (K : forall x, In x (op_location lib_options :: op_dirs lib_options) -> x = txt "lib") by (intros x [<-|[<-|[]]]; reflexivity).
      rewrite (K d Hd), (K d' Hd'). congruence.
    + intros d k [<-|[]] [= <-]. vm_compute. repeat constructor; cbn; intuition discriminate.
Qed.

(** Two directories with files of the same name. *)
Definition two_dirs : disk := mkDisk (fun p => if text_eqb p (txt "a") then Some 0 else if text_eqb p (txt "b") then Some 1 else None)
  (fun k => match k with
            | 0 => [(txt "F.hh", Some (txt "class A : public PSimpleBase<double, double>" ++ [nl]))]
            | _ => [(txt "F.hh", Some (txt "class B : public PSimpleBase<double, double>" ++ [nl]))] end).
Definition two_options : options := mkOptions (txt "a") [txt "a"; txt "b"] [] false.
Lemma same_file : exists dk' t1 t2, lw_main 100 plain_setting two_options two_dirs = (dk', Finished) /\
  lookup two_dirs (txt "b") (txt "F.hh") = Some (Some t2) /\ In (TSimple, txt "double", txt "double", txt "B") (file_entries (txt "F.hh", Some t2)) /\
  In (TSimple, txt "double", txt "double", txt "B") (all_entries (headers two_dirs (op_dirs two_options))) /\
  include_finds dk' (op_location two_options :: op_dirs two_options) (txt "F.hh") = Some t1 /\
  ~ In (TSimple, txt "double", txt "double", txt "B") (file_entries (txt "F.hh", Some t1)).
Proof.
  exists (fst (lw_main 100 plain_setting two_options two_dirs)). eexists. eexists.
  assert (X : snd (lw_main 100 plain_setting two_options two_dirs) = Finished) by (vm_compute; reflexivity).
  split; [rewrite <- X; now destruct (lw_main 100 plain_setting two_options two_dirs)|].
  split; [vm_compute; reflexivity|]. split; [vm_compute; auto|]. split; [vm_compute; auto|]. split; [vm_compute; reflexivity|].
  vm_compute. intuition discriminate.
Qed.

(** A class declared twice: the header of the library that was there is emptied, its source left. *)
Definition again_disk : disk := mkDisk (fun p => if text_eqb p (txt "a") then Some 0 else None)
  (fun _ => [(txt "F.hh", Some (txt "class A : public PSimpleBase<double, double>" ++ [nl])); (txt "G.hh", Some (txt "class A : public PSimpleBase<double, double>" ++ [nl]));
             (txt "PLibrary.hh", Some (txt "old header")); (txt "PLibrary.cc", Some (txt "old source"))]).
Definition again_options : options := mkOptions (txt "a") [txt "a"] [] false.
Lemma again_ends : setting_ok plain_setting /\ enough 100 (headers again_disk (op_dirs again_options)) /\ can_write again_options again_disk /\ all_there again_disk (op_dirs again_options) /\
  ~ NoDup (all_entries (headers again_disk (op_dirs again_options))) /\
  exists dk', lw_main 100 plain_setting again_options again_disk = (dk', Exited) /\
    lookup dk' (txt "a") (txt "PLibrary.hh") = Some (Some []) /\ lookup dk' (txt "a") (txt "PLibrary.cc") = Some (Some (txt "old source")).
Proof.
  split; [exact plain_ok|]. split; [split; [lia|]; intros f t H; vm_compute in H; destruct H as [[= <- <-]|[[= <- <-]|[]]]; vm_compute; lia|]. split; [split; [discriminate|]|].
  { intros n H. unfold again_options, outputs in H. cbn [op_compile app In] in H. destruct H as [<-|[<-|[]]]; vm_compute; discriminate. }
  split; [intros d [<-|[]]; discriminate|].
  split; [intros N; vm_compute in N; inversion N as [|? ? H _]; apply H; now left|].
  exists (fst (lw_main 100 plain_setting again_options again_disk)).
  assert (X : snd (lw_main 100 plain_setting again_options again_disk) = Exited) by (vm_compute; reflexivity).
  split; [rewrite <- X; now destruct (lw_main 100 plain_setting again_options again_disk)|]. split; vm_compute; reflexivity.
Qed.
Lemma nowhere_case : dk_dir lib_disk (txt "out") = None /\ all_there lib_disk [txt "lib"] /\ headers lib_disk [txt "lib"] = sample_lib.
Proof. split; [reflexivity|]. split; [intros d [<-|[]]; discriminate|]. vm_compute. reflexivity. Qed.

(** Running it again. *)
Lemma lw_rerun : forall fuel e e' o dk dk', setting_ok e -> setting_ok e' -> enough fuel (headers dk (op_dirs o)) -> can_write o dk ->
  writable_library (op_vars o) (all_entries (headers dk (op_dirs o))) -> Forall (fun f => one_line (fst f)) (headers dk (op_dirs o)) ->
  lw_main fuel e o dk = (dk', Finished) ->
  exists dk'' ht src, lw_main fuel e' o dk' = (dk'', Finished) /\
    lookup dk'' (op_location o) (txt "PLibrary.hh") = Some (Some ht) /\ declares_library (op_vars o) (all_entries (headers dk (op_dirs o))) ht /\
    lookup dk'' (op_location o) (txt "PLibrary.cc") = Some (Some src) /\ defines_library (op_vars o) (all_entries (headers dk (op_dirs o))) src.
Proof.
  intros fuel e e' o dk dk' Se Se' He Cw W L E.
  destruct (lw_iff fuel e o dk Se He W L) as [[K _] _]. rewrite E in K. destruct (K eq_refl) as [A N].
  assert (Fb := no_feedback fuel e o dk (op_dirs o)). rewrite E in Fb. cbn [fst] in Fb.
  destruct (lw_finishes fuel e o dk Se He Cw A N W L) as (dk1 & ht1 & src1 & E1 & L1 & _ & L2 & _ & L3 & [U1 U2]). rewrite E in E1. injection E1 as <-.
  assert (Cw' : can_write o dk').
  { destruct Cw as [C1 C2]. split; [now rewrite U1|]. intros n Hn. unfold outputs in Hn. cbn [app] in Hn.
    destruct Hn as [<-|[<-|Hn]]; [rewrite L1; discriminate|rewrite L2; discriminate|]. destruct (op_compile o); [|destruct Hn]. destruct Hn as [<-|[]]. rewrite L3 by reflexivity. discriminate. }
  assert (A' : all_there dk' (op_dirs o)) by (intros d Hd; rewrite U1; auto).
  rewrite <- Fb in He, W, L, N. destruct (lw_finishes fuel e' o dk' Se' He Cw' A' N W L) as (dk2 & ht & src & B1 & B2 & B3 & B4 & B5 & _).
  rewrite Fb in *. exists dk2, ht, src. auto.
Qed.

(** A directory of the name of an output is left there. *)
Lemma put_in_the_way : forall name t name' d, file_at name' d = Some None -> file_at name' (file_put name t d) = Some None.
Proof.
  intros name t name' d. induction d as [|[n x] d IH]; cbn; [discriminate|]. intros H.
  destruct (text_eqb n name) eqn:N; cbn; destruct (text_eqb n name'); auto. injection H as ->. reflexivity.
Qed.
Lemma write_in_the_way : forall loc name t dk path name', lookup dk path name' = Some None -> lookup (write_file loc name t dk) path name' = Some None.
Proof.
  intros loc name t dk path name'. unfold lookup. rewrite write_dir. destruct (dk_dir dk path) as [k|]; [|discriminate]. intros H.
  unfold write_file. destruct (dk_dir dk loc) as [j|]; auto. cbn. destruct (Nat.eqb k j) eqn:K; auto. apply Nat.eqb_eq in K. subst j. now apply put_in_the_way.
Qed.
Lemma lw_write_in_the_way : forall fuel o name order write dk path name', lookup dk path name' = Some None ->
  lookup (fst (lw_write fuel o name order write dk)) path name' = Some None.
Proof.
  intros fuel o name order write dk path name' H. unfold lw_write.
  destruct (scan_dirs fuel order (write_file (op_location o) name [] dk) (op_dirs o) coll_empty) as [c u|c x| | |]; cbn [fst]; auto using write_in_the_way.
  destruct (let* _ := log_text c in write c); cbn [fst]; auto using write_in_the_way.
Qed.
Lemma in_the_way : forall fuel e o dk path name, lookup dk path name = Some None -> lookup (fst (lw_main fuel e o dk)) path name = Some None.
Proof.
  intros fuel e o dk path name H. unfold lw_main.
  assert (K1 := lw_write_in_the_way fuel o (txt "PLibrary.hh") (se_order1 e) (header_text (stamp_at e (se_time1 e)) (op_vars o)) dk path name H).
  destruct (lw_write fuel o (txt "PLibrary.hh") (se_order1 e) (header_text (stamp_at e (se_time1 e)) (op_vars o)) dk) as [dk1 [| | |r|]]; cbn [fst] in *; auto.
  assert (K2 := lw_write_in_the_way fuel o (txt "PLibrary.cc") (se_order2 e) (source_text (stamp_at e (se_time2 e)) (op_vars o)) dk1 path name K1).
  destruct (lw_write fuel o (txt "PLibrary.cc") (se_order2 e) (source_text (stamp_at e (se_time2 e)) (op_vars o)) dk1) as [dk2 [| | |r|]]; cbn [fst] in *; auto.
  destruct (op_compile o); auto using write_in_the_way.
Qed.
Definition blocked_disk : disk := mkDisk (fun p => if text_eqb p (txt "lib") then Some 0 else None) (fun _ => sample_lib ++ [(txt "PLibrary.cc", None)]).
Lemma blocked : lookup blocked_disk (txt "lib") (txt "PLibrary.cc") = Some None /\ snd (lw_main 300 plain_setting lib_options blocked_disk) = Finished /\
  exists ht, lookup (fst (lw_main 300 plain_setting lib_options blocked_disk)) (txt "lib") (txt "PLibrary.hh") = Some (Some ht).
Proof. split; [vm_compute; reflexivity|]. split; [vm_compute; reflexivity|]. eexists. vm_compute. reflexivity. Qed.
