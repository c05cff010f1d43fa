(** The commands the library writer starts. *)
From Coq Require Import ZArith List Bool Ascii String Lia.
From Verif Require Import Model.Outcome Model.Stream Model.Lw Model.LwText Model.LwMain Model.LwCompile.
From Verif Require Import Spec.Lw Spec.LwText Spec.LwMain Spec.LwCompile.
From Verif Require Import Proofs.LwLibP Proofs.LwMainP.
Import ListNotations.
Open Scope list_scope.

Lemma read_plain p : plain p -> forall t w l acc, sh_read (p ++ t) w l acc = sh_read t (w ++ p) l acc.
Proof.
  induction 1 as [|c p H _ IH]; intros t w l acc; simpl; [now rewrite app_nil_r|]. rewrite H, IH, <- app_assoc. reflexivity.
Qed.
Lemma read_space t w l acc : sh_read (" "%char :: t) w l acc = sh_read t [] (add_word w l) acc.
Proof. reflexivity. Qed.
Lemma add_some w l : w <> [] -> add_word w l = l ++ [w].
Proof. destruct w; [congruence|reflexivity]. Qed.

Lemma read_words ws : Forall word ws -> forall t l acc, sh_read (joined ws ++ " "%char :: t) [] l acc = sh_read t [] (l ++ ws) acc.
Proof.
  induction 1 as [|w ws [P N] F IH]; intros t l acc; [simpl; now rewrite app_nil_r|]. destruct ws as [|w' ws].
  - simpl. rewrite (read_plain w P), read_space. simpl. now rewrite add_some.
  - change (joined (w :: w' :: ws)) with (w ++ " "%char :: joined (w' :: ws)). rewrite <- app_assoc, (read_plain w P). simpl app at 1. rewrite read_space, app_nil_l, add_some by auto.
    simpl app. rewrite IH, <- app_assoc. reflexivity.
Qed.
Lemma read_word w : word w -> forall t l acc, sh_read (w ++ " "%char :: t) [] l acc = sh_read t [] (l ++ [w]) acc.
Proof. intros H. exact (read_words [w] (Forall_cons _ H (Forall_nil _))). Qed.
Lemma read_last l acc : l <> [] -> forall w, plain w -> sh_read w [] l acc = add_command (add_word w l) acc.
Proof.
  intros N w P. rewrite <- (app_nil_r w) at 1. rewrite (read_plain w P), app_nil_l. simpl. unfold add_word. destruct w; [destruct l; [congruence|reflexivity]|]. destruct l; reflexivity.
Qed.
Lemma read_end ws : Forall word ws -> forall l acc, l <> [] -> sh_read (joined ws) [] l acc = add_command (l ++ ws) acc.
Proof.
  intros F. induction F as [|w ws [P N] F IH]; intros l acc H.
  - rewrite app_nil_r. simpl. destruct l; [congruence|reflexivity].
  - destruct ws as [|w' ws].
    + simpl joined. rewrite read_last by auto. now rewrite add_some.
    + change (joined (w :: w' :: ws)) with (w ++ " "%char :: joined (w' :: ws)). rewrite (read_plain w P), read_space, app_nil_l, add_some by auto.
      rewrite IH by (destruct l; discriminate). now rewrite <- app_assoc.
Qed.

Lemma plain_app a b : plain a -> plain b -> plain (a ++ b).
Proof. intros A B. apply Forall_app. auto. Qed.
Lemma in_dir_word loc name : plain loc -> word name -> word (in_dir loc name).
Proof.
  intros P [W N]. unfold in_dir. destruct (rev loc) as [|c r] eqn:E; [split; auto|]. assert (L : loc <> []) by (intros ->; discriminate).
  destruct (Ascii.eqb c "/"); (split; [|destruct loc; [congruence|discriminate]]); apply plain_app; auto. constructor; [reflexivity|exact W].
Qed.
Lemma in_dir_names loc name : names_file (in_dir loc name) loc name.
Proof.
  unfold names_file, in_dir. destruct (rev loc) as [|c r] eqn:E; [right; right; split; auto; now rewrite <- (rev_involutive loc), E|].
  destruct (Ascii.eqb c "/") eqn:C; [|auto]. right. left. split; auto. apply Ascii.eqb_eq in C. subst c. exists (rev r). rewrite <- (rev_involutive loc), E. reflexivity.
Qed.

Lemma first_command cxx rest : command_words cxx -> add_command (cxx ++ rest) [] = Some [cxx ++ rest].
Proof. intros [_ (w & ws & -> & C)]. simpl. now rewrite C. Qed.
Lemma command_not_nil cxx rest : command_words cxx -> cxx ++ rest <> [].
Proof. intros [_ (w & ws & -> & C)]. discriminate. Qed.

Lemma read_dirs dirs : Forall plain dirs -> forall l acc, l <> [] ->
  sh_read (flat_map (fun d => txt "-I" ++ d ++ txt " ") dirs) [] l acc = add_command (l ++ map (fun d => txt "-I" ++ d) dirs) acc.
Proof.
  induction 1 as [|d dirs P F IH]; intros l acc N; [simpl; rewrite app_nil_r; destruct l; [congruence|reflexivity]|].
  cbn [flat_map map]. rewrite <- !app_assoc. assert (W : word (txt "-I" ++ d)) by (split; [apply plain_app; auto; repeat constructor|discriminate]).
  replace (txt "-I" ++ d ++ txt " " ++ flat_map (fun d0 => txt "-I" ++ d0 ++ txt " ") dirs) with ((txt "-I" ++ d) ++ " "%char :: flat_map (fun d0 => txt "-I" ++ d0 ++ txt " ") dirs)
    by (rewrite <- app_assoc; reflexivity).
  rewrite (read_word _ W), IH by (destruct l; discriminate). now rewrite <- app_assoc.
Qed.

Ltac a_word := split; [repeat constructor | discriminate].

Lemma library_words t o cxx flags : word_options t o cxx flags ->
  sh_commands (library_command t o) = Some [compile_args cxx flags (op_dirs o) (in_dir (op_location o) (txt "PLibrary.cc")) (in_dir (op_location o) (txt "PLibrary.o"))].
Proof.
  intros [E1 W1 E2 W2 PL PD]. unfold library_command, sh_commands. rewrite E1, E2.
  assert (A : word (in_dir (op_location o) (txt "PLibrary.cc"))) by (apply in_dir_word; auto; a_word).
  assert (B : word (in_dir (op_location o) (txt "PLibrary.o"))) by (apply in_dir_word; auto; a_word).
  set (a := in_dir (op_location o) (txt "PLibrary.cc")) in *. set (b := in_dir (op_location o) (txt "PLibrary.o")) in *.
  change (txt " -c " ++ a ++ txt " -o " ++ b ++ txt " " ++ joined flags ++ txt " " ++ flat_map (fun d => txt "-I" ++ d ++ txt " ") (op_dirs o))
    with (" "%char :: txt "-c" ++ " "%char :: a ++ " "%char :: txt "-o" ++ " "%char :: b ++ " "%char :: joined flags ++ " "%char :: flat_map (fun d => txt "-I" ++ d ++ txt " ") (op_dirs o)).
  rewrite read_words by apply W1. rewrite (read_word (txt "-c")) by a_word. rewrite (read_word a A), (read_word (txt "-o")) by a_word. rewrite (read_word b B), read_words by auto.
  rewrite read_dirs; [| auto | simpl; rewrite <- !app_assoc; now apply command_not_nil]. simpl app. rewrite <- !app_assoc. now apply first_command.
Qed.

Lemma extern_words t o cxx flags : word_options t o cxx flags ->
  sh_commands (extern_command t o) = Some [compile_args cxx flags [] (in_dir (op_location o) (txt "PExtern.cc")) (in_dir (op_location o) (txt "PExtern.o"))].
Proof.
  intros [E1 W1 E2 W2 PL PD]. unfold extern_command, sh_commands. rewrite E1, E2.
  assert (A : word (in_dir (op_location o) (txt "PExtern.cc"))) by (apply in_dir_word; auto; a_word).
  assert (B : word (in_dir (op_location o) (txt "PExtern.o"))) by (apply in_dir_word; auto; a_word).
  set (a := in_dir (op_location o) (txt "PExtern.cc")) in *. set (b := in_dir (op_location o) (txt "PExtern.o")) in *.
  change (txt " -c " ++ a ++ txt " -o " ++ b ++ txt " " ++ joined flags)
    with (" "%char :: txt "-c" ++ " "%char :: a ++ " "%char :: txt "-o" ++ " "%char :: b ++ " "%char :: joined flags).
  rewrite read_words by apply W1. rewrite (read_word (txt "-c")) by a_word. rewrite (read_word a A), (read_word (txt "-o")) by a_word. rewrite (read_word b B).
  rewrite read_end; [| auto | simpl; rewrite <- !app_assoc; now apply command_not_nil]. unfold compile_args. simpl map. rewrite app_nil_r. simpl app. rewrite <- !app_assoc. now apply first_command.
Qed.

Lemma link_words t o cxx flags : word_options t o cxx flags ->
  sh_commands (link_command t o) = Some [link_args cxx (if tl_dylib t then txt "-dynamiclib" else txt "-shared")
    (in_dir (op_location o) (if tl_dylib t then txt "libpextern.dylib" else txt "libpextern.so"))
    [in_dir (op_location o) (txt "PExtern.o"); in_dir (op_location o) (txt "PLibrary.o")]].
Proof.
  intros [E1 W1 E2 W2 PL PD]. unfold link_command, sh_commands. rewrite E1.
  assert (A : word (in_dir (op_location o) (txt "PExtern.o"))) by (apply in_dir_word; auto; a_word).
  assert (B : word (in_dir (op_location o) (txt "PLibrary.o"))) by (apply in_dir_word; auto; a_word).
  assert (L : word (in_dir (op_location o) (if tl_dylib t then txt "libpextern.dylib" else txt "libpextern.so"))) by (apply in_dir_word; auto; destruct (tl_dylib t); a_word).
  set (a := in_dir (op_location o) (txt "PExtern.o")) in *. set (b := in_dir (op_location o) (txt "PLibrary.o")) in *.
  set (lib := in_dir (op_location o) (if tl_dylib t then txt "libpextern.dylib" else txt "libpextern.so")) in *.
  set (how := if tl_dylib t then txt "-dynamiclib" else txt "-shared").
  assert (H : word how) by (unfold how; destruct (tl_dylib t); a_word).
  replace ((if tl_dylib t then txt " -dynamiclib -o " else txt " -shared -o ") ++ lib ++ txt " " ++ a ++ txt " " ++ b)
    with (" "%char :: how ++ " "%char :: txt "-o" ++ " "%char :: lib ++ " "%char :: a ++ " "%char :: b) by (unfold how; destruct (tl_dylib t); reflexivity).
  rewrite read_words by apply W1. rewrite (read_word how H), (read_word (txt "-o")) by a_word. rewrite (read_word lib L), (read_word a A).
  rewrite read_last; [| simpl; rewrite <- !app_assoc; now apply command_not_nil | apply B]. rewrite add_some by apply B. simpl app. rewrite <- !app_assoc. now apply first_command.
Qed.

(** ** Running them *)

Lemma commands_logged fuel sh e t o dk : shell_starts sh -> op_compile o = true -> snd (lw_main fuel e o dk) = Finished ->
  exists s dk1 dk2 dk3, lw_run fuel sh e t o dk = (s, Finished) /\ sd_log s = [(library_command t o, dk1); (extern_command t o, dk2); (link_command t o, dk3)] /\
    lw_main fuel e (mkOptions (op_location o) (op_dirs o) (op_vars o) false) dk = (dk1, Finished) /\
    (exists dk1', sh (library_command t o) dk1 = Some dk1' /\ dk2 = write_file (op_location o) (txt "PExtern.cc") (se_extern e) dk1') /\
    sh (extern_command t o) dk2 = Some dk3 /\ sh (link_command t o) dk3 = Some (sd_disk s).
Proof.
  intros S C F. unfold lw_run. destruct (lw_main fuel e (mkOptions (op_location o) (op_dirs o) (op_vars o) false) dk) as [dk1 r] eqn:E.
  assert (R : r = Finished).
  { unfold lw_main in E, F. cbn [op_location op_dirs op_vars op_compile] in E.
    change (lw_write fuel (mkOptions (op_location o) (op_dirs o) (op_vars o) false)) with (lw_write fuel o) in E.
    destruct (lw_write fuel o (txt "PLibrary.hh") (se_order1 e) (header_text (stamp_at e (se_time1 e)) (op_vars o)) dk) as [d1 r1]; destruct r1; try (simpl in F; congruence).
    destruct (lw_write fuel o (txt "PLibrary.cc") (se_order2 e) (source_text (stamp_at e (se_time2 e)) (op_vars o)) d1) as [d2 r2]; destruct r2; simpl in F; congruence. }
  subst r. rewrite C. unfold lw_compile, popen. cbn [sd_disk sd_log].
  destruct (sh (library_command t o) dk1) as [x1|] eqn:E1; [|now apply S in E1]. cbn [obind sd_disk sd_log].
  destruct (sh (extern_command t o) (write_file (op_location o) (txt "PExtern.cc") (se_extern e) x1)) as [x2|] eqn:E2; [|now apply S in E2]. cbn [obind sd_disk sd_log].
  destruct (sh (link_command t o) x2) as [x3|] eqn:E3; [|now apply S in E3]. cbn [obind].
  do 4 eexists. repeat split; try eassumption. eexists. split; eauto.
Qed.

Lemma main_part fuel e o dk : snd (lw_main fuel e (mkOptions (op_location o) (op_dirs o) (op_vars o) false) dk) = snd (lw_main fuel e o dk).
Proof.
  unfold lw_main. cbn [op_location op_dirs op_vars op_compile]. change (lw_write fuel (mkOptions (op_location o) (op_dirs o) (op_vars o) false)) with (lw_write fuel o).
  destruct (lw_write fuel o (txt "PLibrary.hh") (se_order1 e) (header_text (stamp_at e (se_time1 e)) (op_vars o)) dk) as [d1 r1]; destruct r1; auto.
  destruct (lw_write fuel o (txt "PLibrary.cc") (se_order2 e) (source_text (stamp_at e (se_time2 e)) (op_vars o)) d1) as [d2 r2]; destruct r2; auto.
Qed.

Lemma ending_same fuel sh e t o dk : shell_starts sh -> snd (lw_run fuel sh e t o dk) = snd (lw_main fuel e o dk).
Proof.
  intros S. destruct (op_compile o) eqn:C.
  - destruct (snd (lw_main fuel e o dk)) eqn:F;
      [destruct (commands_logged fuel sh e t o dk S C F) as (s & dk1 & dk2 & dk3 & E & _); now rewrite E|..];
      rewrite <- main_part in F; unfold lw_run; destruct (lw_main fuel e (mkOptions (op_location o) (op_dirs o) (op_vars o) false) dk) as [d q]; simpl in F; subst q; reflexivity.
  - unfold lw_run. rewrite <- main_part, C. destruct (lw_main fuel e (mkOptions (op_location o) (op_dirs o) (op_vars o) false) dk) as [d r]. destruct r; reflexivity.
Qed.

Lemma never_starts fuel sh e t o dk : (forall cmd d, sh cmd d = None) -> op_compile o = true -> snd (lw_main fuel e o dk) = Finished ->
  snd (lw_run fuel sh e t o dk) = Undefined UBNull.
Proof.
  intros S C F. rewrite <- main_part in F. unfold lw_run. destruct (lw_main fuel e (mkOptions (op_location o) (op_dirs o) (op_vars o) false) dk) as [d r]. simpl in F. subst r.
  rewrite C. unfold lw_compile, popen. now rewrite S.
Qed.

Lemma compile_run fuel sh e t o dk : setting_ok e -> enough fuel (headers dk (op_dirs o)) -> can_write o dk ->
  all_there dk (op_dirs o) -> NoDup (all_entries (headers dk (op_dirs o))) ->
  writable_library (op_vars o) (all_entries (headers dk (op_dirs o))) -> Forall (fun f => one_line (fst f)) (headers dk (op_dirs o)) ->
  op_compile o = true -> shell_starts sh ->
  exists s dk1 dk1' dk2 dk3 ht src, lw_run fuel sh e t o dk = (s, Finished) /\
    sd_log s = [(library_command t o, dk1); (extern_command t o, dk2); (link_command t o, dk3)] /\
    lookup dk1 (op_location o) (txt "PLibrary.hh") = Some (Some ht) /\ declares_library (op_vars o) (all_entries (headers dk (op_dirs o))) ht /\
    lookup dk1 (op_location o) (txt "PLibrary.cc") = Some (Some src) /\ defines_library (op_vars o) (all_entries (headers dk (op_dirs o))) src /\
    sh (library_command t o) dk1 = Some dk1' /\
    (dk_dir dk1' (op_location o) <> None -> lookup dk1' (op_location o) (txt "PExtern.cc") <> Some None ->
     lookup dk2 (op_location o) (txt "PExtern.cc") = Some (Some (se_extern e))) /\
    unchanged_but (op_location o) [txt "PExtern.cc"] dk1' dk2 /\
    sh (extern_command t o) dk2 = Some dk3 /\ sh (link_command t o) dk3 = Some (sd_disk s).
Proof.
  intros Se He Cw A N W L C S.
  destruct (lw_finishes fuel e o dk Se He Cw A N W L) as (dk' & ht0 & src0 & E0 & _).
  destruct (commands_logged fuel sh e t o dk S C ltac:(now rewrite E0)) as (s & dk1 & dk2 & dk3 & E & EL & EM & (dk1' & E1 & ->) & E2 & E3).
  set (o' := mkOptions (op_location o) (op_dirs o) (op_vars o) false) in EM.
  assert (Cw' : can_write o' dk) by (destruct Cw as [H1 H2]; split; [exact H1|intros n Hn; apply H2; unfold outputs in *; rewrite C; cbn in Hn |- *; intuition]).
  destruct (lw_finishes fuel e o' dk Se He Cw' A N W L) as (dk1x & ht & src & EM' & X1 & X2 & X3 & X4 & _).
  assert (dk1x = dk1) as -> by congruence.
  exists s, dk1, dk1', (write_file (op_location o) (txt "PExtern.cc") (se_extern e) dk1'), dk3, ht, src. repeat split; auto; try exact X1; try exact X2; try exact X3; try apply X4.
  - intros H1 H2. now apply write_lookup.
  - apply write_dir.
  - intros path name H. apply write_other. intros [K1 K2]. apply H. split; auto. left. auto.
Qed.

(** ** Other commands *)

Lemma read_semi t w l acc : sh_read (";"%char :: t) w l acc = match add_command (add_word w l) acc with Some acc' => sh_read t [] [] acc' | None => None end.
Proof. reflexivity. Qed.
Lemma in_dir_space a name : in_dir (a ++ [" "%char]) name = a ++ " "%char :: "/"%char :: name.
Proof. unfold in_dir. rewrite rev_app_distr. simpl. rewrite <- app_assoc. reflexivity. Qed.
Lemma joined_semi b t acc : command_words b -> sh_read (joined b ++ ";"%char :: t) [] [] acc = sh_read t [] [] (acc ++ [b]).
Proof.
  intros [F (w & ws & -> & C)]. assert (G : forall ws l, Forall word ws -> ws <> [] -> sh_read (joined ws ++ ";"%char :: t) [] l acc =
    match add_command (l ++ ws) acc with Some acc' => sh_read t [] [] acc' | None => None end).
  { clear. induction ws as [|w ws IH]; intros l F N; [congruence|]. inversion F as [|? ? [P Nw] F']; subst. destruct ws as [|w' ws].
    - simpl joined. rewrite (read_plain w P), read_semi, app_nil_l, add_some by auto. reflexivity.
    - change (joined (w :: w' :: ws)) with (w ++ " "%char :: joined (w' :: ws)). rewrite <- app_assoc, (read_plain w P). simpl app at 1.
      rewrite read_space, app_nil_l, add_some by auto. rewrite IH by (auto; discriminate). now rewrite <- app_assoc. }
  rewrite G by (auto; discriminate). simpl. now rewrite C.
Qed.

Lemma injected t o cxx flags a b : tl_cxx t = joined cxx -> command_words cxx -> tl_cflags t = joined flags -> Forall word flags -> Forall plain (op_dirs o) ->
  word a -> command_words b -> op_location o = a ++ txt "; " ++ joined b ++ txt "; " ->
  exists cs, sh_commands (library_command t o) = Some cs /\ In b cs.
Proof.
  intros E1 W1 E2 W2 PD A B EL. unfold library_command, sh_commands. rewrite E1, E2, EL.
  replace (a ++ txt "; " ++ joined b ++ txt "; ") with ((a ++ txt "; " ++ joined b ++ txt ";") ++ [" "%char]) by (rewrite <- !app_assoc; reflexivity).
  rewrite !in_dir_space.
  replace (joined cxx ++ txt " -c " ++ ((a ++ txt "; " ++ joined b ++ txt ";") ++ " "%char :: "/"%char :: txt "PLibrary.cc") ++ txt " -o " ++
           ((a ++ txt "; " ++ joined b ++ txt ";") ++ " "%char :: "/"%char :: txt "PLibrary.o") ++ txt " " ++ joined flags ++ txt " " ++
           flat_map (fun d => txt "-I" ++ d ++ txt " ") (op_dirs o))
    with (joined cxx ++ " "%char :: txt "-c" ++ " "%char :: a ++ ";"%char :: " "%char :: joined b ++ ";"%char :: " "%char :: txt "/PLibrary.cc" ++ " "%char :: txt "-o" ++ " "%char ::
           a ++ ";"%char :: " "%char :: joined b ++ ";"%char :: " "%char :: txt "/PLibrary.o" ++ " "%char :: joined flags ++ " "%char :: flat_map (fun d => txt "-I" ++ d ++ txt " ") (op_dirs o))
    by (repeat (rewrite <- ?app_assoc; cbn [app txt list_ascii_of_string]); reflexivity).
  rewrite read_words by apply W1. rewrite (read_word (txt "-c")) by a_word. rewrite (read_plain a (proj1 A)), read_semi, app_nil_l, (add_some a) by apply A.
  rewrite app_nil_l, <- app_assoc, first_command by auto. rewrite read_space. simpl add_word. rewrite joined_semi by auto. rewrite read_space. simpl add_word.
  rewrite (read_word (txt "/PLibrary.cc")) by a_word. rewrite (read_word (txt "-o")) by a_word. rewrite (read_plain a (proj1 A)), read_semi, app_nil_l, (add_some a) by apply A.
  match goal with |- context [add_command ?l ?ac] => replace (add_command l ac) with (Some (ac ++ [l])) by reflexivity end.
  rewrite read_space. simpl add_word. rewrite joined_semi by auto. rewrite read_space. simpl add_word.
  rewrite (read_word (txt "/PLibrary.o")) by a_word. rewrite read_words by auto. rewrite read_dirs by (auto; discriminate).
  eexists. split; [reflexivity|]. rewrite <- !app_assoc. simpl. auto.
Qed.

Lemma injected_run fuel sh e t o dk cxx flags a b : setting_ok e -> enough fuel (headers dk (op_dirs o)) -> dk_dir dk (op_location o) = None ->
  all_there dk (op_dirs o) -> NoDup (all_entries (headers dk (op_dirs o))) ->
  writable_library (op_vars o) (all_entries (headers dk (op_dirs o))) -> Forall (fun f => one_line (fst f)) (headers dk (op_dirs o)) ->
  op_compile o = true -> shell_starts sh ->
  tl_cxx t = joined cxx -> command_words cxx -> tl_cflags t = joined flags -> Forall word flags -> Forall plain (op_dirs o) ->
  word a -> command_words b -> op_location o = a ++ txt "; " ++ joined b ++ txt "; " ->
  exists s cmd cs, lw_run fuel sh e t o dk = (s, Finished) /\ In (cmd, dk) (sd_log s) /\ sh_commands cmd = Some cs /\ In b cs.
Proof.
  intros Se He L1 A N W L C S E1 W1 E2 W2 PD Wa Wb EL.
  destruct (injected t o cxx flags a b E1 W1 E2 W2 PD Wa Wb EL) as (cs & H1 & H2).
  pose proof (lw_nowhere fuel e o dk Se He L1 A N W L) as F.
  destruct (commands_logged fuel sh e t o dk S C ltac:(now rewrite F)) as (s & dk1 & dk2 & dk3 & E & EL' & EM & _).
  pose proof (lw_nowhere fuel e (mkOptions (op_location o) (op_dirs o) (op_vars o) false) dk Se He L1 A N W L) as F'.
  assert (dk1 = dk) by congruence. subst dk1. exists s, (library_command t o), cs. repeat split; auto. rewrite EL'. left. reflexivity.
Qed.

(** ** Cases *)

Definition plain_tools : tools := mkTools (txt "g++") (txt "-O3 -fPIC") false.
Lemma plain_words : word_options plain_tools lib_options [txt "g++"] [txt "-O3"; txt "-fPIC"].
Proof.
  split; try reflexivity; try (repeat constructor; discriminate). split; [repeat constructor; discriminate|]. exists (txt "g++"), []. split; reflexivity.
Qed.
Definition lazy_shell : text -> disk -> option disk := fun _ dk => Some dk.
Lemma lazy_starts : shell_starts lazy_shell.
Proof. intros c d. discriminate. Qed.

Lemma plain_commands : sh_commands (library_command plain_tools lib_options) =
    Some [map txt ["g++"; "-c"; "lib/PLibrary.cc"; "-o"; "lib/PLibrary.o"; "-O3"; "-fPIC"; "-Ilib"]%string] /\
  sh_commands (link_command plain_tools lib_options) = Some [map txt ["g++"; "-shared"; "-o"; "lib/libpextern.so"; "lib/PExtern.o"; "lib/PLibrary.o"]%string].
Proof. split; vm_compute; reflexivity. Qed.

Lemma nothing_made : exists sh s, shell_starts sh /\ lw_run 300 sh plain_setting plain_tools lib_options lib_disk = (s, Finished) /\
  lookup (sd_disk s) (txt "lib") (txt "libpextern.so") = None.
Proof.
  exists lazy_shell, (fst (lw_run 300 lazy_shell plain_setting plain_tools lib_options lib_disk)). split; [exact lazy_starts|].
  assert (X : snd (lw_run 300 lazy_shell plain_setting plain_tools lib_options lib_disk) = Finished).
  { rewrite (ending_same _ _ _ _ _ _ lazy_starts). destruct lib_case as (H1 & H2 & H3 & H4 & H5 & H6 & H7 & _).
    destruct (lw_finishes 300 plain_setting lib_options lib_disk H1 H2 H3 H4 H5 H6 H7) as (d & h & c & E & _). now rewrite E. }
  split; [rewrite <- X; now destruct (lw_run 300 lazy_shell plain_setting plain_tools lib_options lib_disk)|]. vm_compute. reflexivity.
Qed.

Definition spaced_options : options := mkOptions (txt "my lib") [txt "lib"] sample_var true.
Lemma spaced_words : sh_commands (library_command plain_tools spaced_options) =
    Some [map txt ["g++"; "-c"; "my"; "lib/PLibrary.cc"; "-o"; "my"; "lib/PLibrary.o"; "-O3"; "-fPIC"; "-Ilib"]%string] /\
  sh_commands (library_command plain_tools spaced_options) <>
    Some [compile_args [txt "g++"] [txt "-O3"; txt "-fPIC"] (op_dirs spaced_options) (in_dir (op_location spaced_options) (txt "PLibrary.cc")) (in_dir (op_location spaced_options) (txt "PLibrary.o"))].
Proof. split; [vm_compute; reflexivity|]. vm_compute. discriminate. Qed.

Definition evil_options : options := mkOptions (txt "x; rm -r lib; ") [txt "lib"] sample_var true.
Lemma evil_case : word (txt "x") /\ command_words (map txt ["rm"; "-r"; "lib"]%string) /\ op_location evil_options = txt "x" ++ txt "; " ++ joined (map txt ["rm"; "-r"; "lib"]%string) ++ txt "; " /\
  dk_dir lib_disk (op_location evil_options) = None /\
  sh_commands (library_command plain_tools evil_options) = Some (map (map txt)
    [["g++"; "-c"; "x"]; ["rm"; "-r"; "lib"]; ["/PLibrary.cc"; "-o"; "x"]; ["rm"; "-r"; "lib"]; ["/PLibrary.o"; "-O3"; "-fPIC"; "-Ilib"]]%string).
Proof.
  split; [a_word|]. split; [split; [repeat constructor; discriminate|]; eexists; eexists; split; reflexivity|]. repeat split; vm_compute; reflexivity.
Qed.
