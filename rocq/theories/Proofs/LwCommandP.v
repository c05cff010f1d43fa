(** The library writer's command line: C68. *)
From Coq Require Import ZArith List Bool Ascii String Lia.
From Verif Require Import Model.Outcome Model.Stream Model.Lw Model.LwText Model.LwMain Model.LwCompile Model.LwCommand.
From Verif Require Import Spec.Lw Spec.LwText Spec.LwMain Spec.LwCompile Spec.LwCommand.
From Verif Require Import Proofs.LwLibP Proofs.LwMainP Proofs.LwCompileP.
Import ListNotations.

Lemma nothing_done : forall fuel sh e p dk, (forall g v, ~ asks_library p g v) ->
  exists n, lw_command fuel sh e p dk = (mkStarted dk [], Returned n) /\ (n = 0%Z <-> asks_information p) /\ (0 <= n <= 2)%Z.
Proof.
  intros fuel sh e p dk H. assert (N : forall n, (0 < n <= 2)%Z -> (forall g, p = Options g -> gv_help g = false /\ gv_version g = false) -> (n = 0%Z <-> asks_information p) /\ (0 <= n <= 2)%Z).
  { intros n Hn Hp. split; [|lia]. split; [lia|]. intros (g & E & Hg). destruct (Hp g E). destruct Hg; congruence. }
  destruct p as [g| |]; cbn.
  - destruct (gv_help g) eqn:Eh; [exists 0%Z; split; [reflexivity|]; split; [|lia]; split; [intros _; exists g; auto|reflexivity]|].
    destruct (gv_version g) eqn:Ev; [exists 0%Z; split; [reflexivity|]; split; [|lia]; split; [intros _; exists g; auto|reflexivity]|].
    unfold notified. destruct (gv_var g) as [v|] eqn:Er; [destruct (H g v); repeat split; assumption|].
    exists 1%Z. split; [reflexivity|]. apply N; [lia|]. intros g' [= <-]. auto.
  - exists 1%Z. split; [reflexivity|]. apply N; [lia|]. discriminate.
  - exists 2%Z. split; [reflexivity|]. apply N; [lia|]. discriminate.
Qed.

Lemma or_else_valued : forall (X : Type) (x : option X) d, valued x d (or_else x d).
Proof. intros X [y|] d; [left|right]; auto. Qed.
Lemma valued_one : forall (X : Type) (x : option X) d y z, valued x d y -> valued x d z -> y = z.
Proof. intros X x d y z [A|[A B]] [C|[C D]]; congruence. Qed.

Lemma asked_runs : forall fuel sh e p g v t o dk, asks_library p g v -> means g v t o ->
  fst (lw_command fuel sh e p dk) = fst (lw_run fuel sh e t o dk) /\
  (forall n, snd (lw_command fuel sh e p dk) = Returned n -> n = 0%Z) /\
  (snd (lw_command fuel sh e p dk) = Returned 0 <-> snd (lw_run fuel sh e t o dk) = Finished).
Proof.
  intros fuel sh e p g v t o dk (-> & Eh & Ev & Er) (M1 & M2 & M3 & M4 & M5 & M6 & M7). cbn. rewrite Eh, Ev. unfold notified. rewrite Er.
  assert (Et : mkTools (or_else (gv_cxx g) (txt "g++")) (or_else (gv_cflags g) (txt "-O3 -fPIC")) (gv_dylib g) = t).
  { destruct t as [a b c]. cbn in *. f_equal; [eapply valued_one; [apply or_else_valued|exact M1]|eapply valued_one; [apply or_else_valued|exact M2]|congruence]. }
  assert (Eo : mkOptions (or_else (gv_location g) (txt ".")) (or_else (gv_dir g) []) v (gv_compile g) = o).
  { destruct o as [a b c d]. cbn in *. f_equal; [eapply valued_one; [apply or_else_valued|exact M4]|eapply valued_one; [apply or_else_valued|exact M5]|congruence|congruence]. }
  rewrite Et, Eo. destruct (lw_run fuel sh e t o dk) as [s r]; destruct r; cbn;
    (split; [reflexivity|]); (split; [intros n E; (discriminate || (injection E as <-; reflexivity))|split; intros; (reflexivity || discriminate)]).
Qed.

Lemma library_asked : forall fuel sh e p g v t o dk, asks_library p g v -> means g v t o -> gv_compile g = false -> setting_ok e ->
  enough fuel (headers dk (op_dirs o)) -> can_write o dk -> all_there dk (op_dirs o) -> NoDup (all_entries (headers dk (op_dirs o))) ->
  writable_library v (all_entries (headers dk (op_dirs o))) -> Forall (fun f => one_line (fst f)) (headers dk (op_dirs o)) ->
  exists dk' ht src, lw_command fuel sh e p dk = (mkStarted dk' [], Returned 0) /\
    lookup dk' (op_location o) (txt "PLibrary.hh") = Some (Some ht) /\ declares_library v (all_entries (headers dk (op_dirs o))) ht /\
    lookup dk' (op_location o) (txt "PLibrary.cc") = Some (Some src) /\ defines_library v (all_entries (headers dk (op_dirs o))) src /\
    unchanged_but (op_location o) [txt "PLibrary.hh"; txt "PLibrary.cc"] dk dk'.
Proof.
  intros fuel sh e p g v t o dk Hp Hm Hc He Hf Hw Ha Hd Hl Hh. destruct (asked_runs fuel sh e p g v t o dk Hp Hm) as (R1 & _ & R2).
  destruct Hm as (_ & _ & _ & _ & _ & Ev & Ec). rewrite Hc in Ec. destruct o as [loc dirs vars comp]; cbn [op_location op_dirs op_vars op_compile] in *. subst vars comp.
  destruct (lw_finishes fuel e (mkOptions loc dirs v false) dk He Hf Hw Ha Hd Hl Hh) as (dk' & ht & src & E & L1 & D1 & L2 & D2 & _ & U). cbn [op_location op_dirs op_vars op_compile] in *.
  assert (Er : lw_run fuel sh e t (mkOptions loc dirs v false) dk = (mkStarted dk' [], Finished)) by (unfold lw_run; cbn [op_location op_dirs op_vars op_compile]; rewrite E; reflexivity).
  rewrite Er in R1, R2. exists dk', ht, src. split; [destruct (lw_command fuel sh e p dk) as [a b]; cbn in R1, R2; f_equal; [exact R1|apply R2; reflexivity]|].
  split; [exact L1|]. split; [exact D1|]. split; [exact L2|]. split; [exact D2|]. exact U.
Qed.

Lemma no_directories : forall fuel sh e p g v t o dk, asks_library p g v -> means g v t o -> gv_dir g = None -> gv_compile g = false -> setting_ok e -> (0 < fuel)%nat ->
  can_write o dk -> (forall c, In c v -> writable c /\ closed 0 (toks c) = true) ->
  exists dk' ht src, lw_command fuel sh e p dk = (mkStarted dk' [], Returned 0) /\
    lookup dk' (op_location o) (txt "PLibrary.hh") = Some (Some ht) /\ declares_library v [] ht /\
    lookup dk' (op_location o) (txt "PLibrary.cc") = Some (Some src) /\ defines_library v [] src.
Proof.
  intros fuel sh e p g v t o dk Hp Hm Hn Hc He Hf Hw Hv.
  assert (Ed : op_dirs o = []) by (destruct Hm as (_ & _ & _ & _ & [A|[_ A]] & _); congruence).
  assert (Eh : headers dk (op_dirs o) = []) by (rewrite Ed; reflexivity).
  destruct (library_asked fuel sh e p g v t o dk Hp Hm Hc He) as (dk' & ht & src & A & B & C & D & E & _); try rewrite Eh; try rewrite Ed.
  - split; [exact Hf|]. intros ? ? [].
  - exact Hw.
  - intros d [].
  - constructor.
  - constructor; [intros ? ? ? ? []| |exact Hv]. intros s n x Ho. exfalso.
    destruct Ho. all: try contradiction.
  - constructor.
  - rewrite Eh in *. exists dk', ht, src. auto.
Qed.

(** ** Examples *)
Definition help_given : given := mkGiven true false true false None None None None None.
Definition plain_given : given := mkGiven false false false false None None (Some (txt "lib")) (Some [txt "lib"]) (Some sample_var).
Definition bare_given : given := mkGiven false false false true (Some (txt "clang++")) None (Some (txt "lib")) None (Some sample_var).
Definition compile_given : given := mkGiven false false true false None None (Some (txt "lib")) (Some [txt "lib"]) (Some sample_var).
Definition plain_meant : options := mkOptions (txt "lib") [txt "lib"] sample_var false.

Lemma plain_asks : asks_library (Options plain_given) plain_given sample_var /\ means plain_given sample_var plain_tools plain_meant.
Proof. split; [repeat split|]. split; [right; auto|]. split; [right; auto|]. split; [reflexivity|]. split; [left; auto|]. split; [left; auto|]. split; reflexivity. Qed.
Lemma plain_can : can_write plain_meant lib_disk.
Proof. destruct lib_case as (_ & _ & [A B] & _). split; [exact A|]. intros name Hn. apply B. cbn in *. tauto. Qed.
Lemma bare_asks : asks_library (Options bare_given) bare_given sample_var /\
  means bare_given sample_var (mkTools (txt "clang++") (txt "-O3 -fPIC") true) (mkOptions (txt "lib") [] sample_var false).
Proof. split; [repeat split|]. split; [left; auto|]. split; [right; auto|]. split; [reflexivity|]. split; [left; auto|]. split; [right; auto|]. split; reflexivity. Qed.
Lemma bare_can : can_write (mkOptions (txt "lib") [] sample_var false) lib_disk /\ forall c, In c sample_var -> writable c /\ closed 0 (toks c) = true.
Proof. split; [exact plain_can|]. destruct lib_case as (_ & _ & _ & _ & _ & W & _). exact (wl_containers _ _ W). Qed.
Lemma plain_rest : setting_ok plain_setting /\ enough 300 (headers lib_disk (op_dirs plain_meant)) /\ can_write plain_meant lib_disk /\ all_there lib_disk (op_dirs plain_meant) /\
  NoDup (all_entries (headers lib_disk (op_dirs plain_meant))) /\ writable_library sample_var (all_entries (headers lib_disk (op_dirs plain_meant))) /\
  Forall (fun f => one_line (fst f)) (headers lib_disk (op_dirs plain_meant)).
Proof.
  destruct lib_case as (H1 & H2 & _ & H4 & H5 & H6 & H7 & _). exact (conj H1 (conj H2 (conj plain_can (conj H4 (conj H5 (conj H6 H7)))))).
Qed.

Lemma zero_nothing : exists sh s, shell_starts sh /\ asks_library (Options compile_given) compile_given sample_var /\ gv_compile compile_given = true /\
  lw_command 300 sh plain_setting (Options compile_given) lib_disk = (s, Returned 0) /\ lookup (sd_disk s) (txt "lib") (txt "libpextern.so") = None.
Proof.
  destruct nothing_made as (sh & s & Hs & E & L). exists sh, s. split; [exact Hs|]. split; [repeat split|]. split; [reflexivity|]. split; [|exact L].
  assert (M : means compile_given sample_var plain_tools lib_options).
  { split; [right; auto|]. split; [right; auto|]. split; [reflexivity|]. split; [left; auto|]. split; [left; auto|]. split; reflexivity. }
  destruct (asked_runs 300 sh plain_setting (Options compile_given) compile_given sample_var plain_tools lib_options lib_disk (conj eq_refl (conj eq_refl (conj eq_refl eq_refl))) M) as (R1 & _ & R2).
  rewrite E in R1, R2. destruct (lw_command 300 sh plain_setting (Options compile_given) lib_disk) as [a b]. cbn in R1, R2. f_equal; [exact R1|apply R2; reflexivity].
Qed.
