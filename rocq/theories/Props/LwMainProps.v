(** C57: runs of the library writer. *)
From Coq Require Import ZArith List Bool Ascii String.
From Verif Require Import Model.Outcome Model.Stream Model.Lw Model.LwText Model.LwMain Spec.Lw Spec.LwText Spec.LwMain Proofs.LwLibP Proofs.LwMainP.
Import ListNotations.

(** C57. If the directories are there and declare no class twice, a run writes a header and a source that declare and define the library of the classes they
    declare - however the directories are listed in its two scans - and changes nothing else. *)
Theorem C57_run : forall fuel e o dk, setting_ok e -> enough fuel (headers dk (op_dirs o)) -> can_write o dk ->
  all_there dk (op_dirs o) -> NoDup (all_entries (headers dk (op_dirs o))) ->
  writable_library (op_vars o) (all_entries (headers dk (op_dirs o))) -> Forall (fun f => one_line (fst f)) (headers dk (op_dirs o)) ->
  exists dk' ht src, lw_main fuel e o dk = (dk', Finished) /\
    lookup dk' (op_location o) (txt "PLibrary.hh") = Some (Some ht) /\ declares_library (op_vars o) (all_entries (headers dk (op_dirs o))) ht /\
    lookup dk' (op_location o) (txt "PLibrary.cc") = Some (Some src) /\ defines_library (op_vars o) (all_entries (headers dk (op_dirs o))) src /\
    (op_compile o = true -> lookup dk' (op_location o) (txt "PExtern.cc") = Some (Some (se_extern e))) /\
    unchanged_but (op_location o) (outputs o) dk dk'.
Proof. exact lw_finishes. Qed.
Print Assumptions C57_run.

(** C57. Otherwise it does not end normally, and it never is undefined. *)
Theorem C57_ends : forall fuel e o dk, setting_ok e -> enough fuel (headers dk (op_dirs o)) ->
  writable_library (op_vars o) (all_entries (headers dk (op_dirs o))) -> Forall (fun f => one_line (fst f)) (headers dk (op_dirs o)) ->
  (snd (lw_main fuel e o dk) = Finished <-> all_there dk (op_dirs o) /\ NoDup (all_entries (headers dk (op_dirs o)))) /\
  (snd (lw_main fuel e o dk) = Finished \/ snd (lw_main fuel e o dk) = Terminated \/ snd (lw_main fuel e o dk) = Exited).
Proof. exact lw_iff. Qed.
Print Assumptions C57_ends.

Example C57_case_run : setting_ok plain_setting /\ enough 300 (headers lib_disk (op_dirs lib_options)) /\ can_write lib_options lib_disk /\ all_there lib_disk (op_dirs lib_options) /\
  NoDup (all_entries (headers lib_disk (op_dirs lib_options))) /\ writable_library sample_var (all_entries (headers lib_disk (op_dirs lib_options))) /\
  Forall (fun f => one_line (fst f)) (headers lib_disk (op_dirs lib_options)) /\ names_agree lib_disk lib_options.
Proof. exact lib_case. Qed.

(** C57. What a run writes is never scanned by a later one, so running it again, at another time and with the directories listed in another order, gives
    the same library. *)
Theorem C57_no_feedback : forall fuel e o dk dirs, headers (fst (lw_main fuel e o dk)) dirs = headers dk dirs.
Proof. exact no_feedback. Qed.
Print Assumptions C57_no_feedback.

Theorem C57_rerun : forall fuel e e' o dk dk', setting_ok e -> setting_ok e' -> enough fuel (headers dk (op_dirs o)) -> can_write o dk ->
  writable_library (op_vars o) (all_entries (headers dk (op_dirs o))) -> Forall (fun f => one_line (fst f)) (headers dk (op_dirs o)) ->
  lw_main fuel e o dk = (dk', Finished) ->
  exists dk'' ht src, lw_main fuel e' o dk' = (dk'', Finished) /\
    lookup dk'' (op_location o) (txt "PLibrary.hh") = Some (Some ht) /\ declares_library (op_vars o) (all_entries (headers dk (op_dirs o))) ht /\
    lookup dk'' (op_location o) (txt "PLibrary.cc") = Some (Some src) /\ defines_library (op_vars o) (all_entries (headers dk (op_dirs o))) src.
Proof. exact lw_rerun. Qed.
Print Assumptions C57_rerun.

(** C57. A class declared twice ends the program after the header was emptied: an old library is left with its source only. So does a directory that is not
    there, by an exception. *)
Theorem C57_twice : forall fuel e o dk, setting_ok e -> enough fuel (headers dk (op_dirs o)) -> can_write o dk -> all_there dk (op_dirs o) ->
  ~ NoDup (all_entries (headers dk (op_dirs o))) ->
  exists dk', lw_main fuel e o dk = (dk', Exited) /\ lookup dk' (op_location o) (txt "PLibrary.hh") = Some (Some []) /\
    unchanged_but (op_location o) [txt "PLibrary.hh"] dk dk'.
Proof. exact lw_twice. Qed.
Print Assumptions C57_twice.

Theorem C57_missing : forall fuel e o dk, setting_ok e -> enough fuel (headers dk (op_dirs o)) -> can_write o dk -> ~ all_there dk (op_dirs o) ->
  exists dk' r, lw_main fuel e o dk = (dk', r) /\ (r = Terminated \/ r = Exited) /\ (NoDup (all_entries (headers dk (op_dirs o))) -> r = Terminated) /\
    lookup dk' (op_location o) (txt "PLibrary.hh") = Some (Some []) /\ unchanged_but (op_location o) [txt "PLibrary.hh"] dk dk'.
Proof. exact lw_missing. Qed.
Print Assumptions C57_missing.

Example C57_case_twice : setting_ok plain_setting /\ enough 100 (headers again_disk (op_dirs again_options)) /\ can_write again_options again_disk /\
  all_there again_disk (op_dirs again_options) /\ ~ NoDup (all_entries (headers again_disk (op_dirs again_options))) /\
  exists dk', lw_main 100 plain_setting again_options again_disk = (dk', Exited) /\
    lookup dk' (txt "a") (txt "PLibrary.hh") = Some (Some []) /\ lookup dk' (txt "a") (txt "PLibrary.cc") = Some (Some (txt "old source")).
Proof. exact again_ends. Qed.

(** C57. A location that is not there goes unnoticed: the program ends normally, and nothing is written. *)
Theorem C57_nowhere : forall fuel e o dk, setting_ok e -> enough fuel (headers dk (op_dirs o)) -> dk_dir dk (op_location o) = None ->
  all_there dk (op_dirs o) -> NoDup (all_entries (headers dk (op_dirs o))) ->
  writable_library (op_vars o) (all_entries (headers dk (op_dirs o))) -> Forall (fun f => one_line (fst f)) (headers dk (op_dirs o)) ->
  lw_main fuel e o dk = (dk, Finished).
Proof. exact lw_nowhere. Qed.
Print Assumptions C57_nowhere.

Example C57_case_nowhere : dk_dir lib_disk (txt "out") = None /\ all_there lib_disk [txt "lib"] /\ headers lib_disk [txt "lib"] = sample_lib.
Proof. exact nowhere_case. Qed.

(** C57. A directory is never replaced, whatever its name and however the run ends ... *)
Theorem C57_in_the_way : forall fuel e o dk path name, lookup dk path name = Some None -> lookup (fst (lw_main fuel e o dk)) path name = Some None.
Proof. exact in_the_way. Qed.
Print Assumptions C57_in_the_way.

(** ... and one that has the name of the source goes unnoticed: the program ends normally with a header only. *)
Example C57_case_in_the_way : lookup blocked_disk (txt "lib") (txt "PLibrary.cc") = Some None /\
  snd (lw_main 300 plain_setting lib_options blocked_disk) = Finished /\
  exists ht, lookup (fst (lw_main 300 plain_setting lib_options blocked_disk)) (txt "lib") (txt "PLibrary.hh") = Some (Some ht).
Proof. exact blocked. Qed.

(** C57. If headers of the same name are the same, wherever they are, then every class of the library is declared in a file that the source includes. *)
Theorem C57_includes : forall fuel e o dk, setting_ok e -> enough fuel (headers dk (op_dirs o)) -> can_write o dk ->
  all_there dk (op_dirs o) -> NoDup (all_entries (headers dk (op_dirs o))) ->
  writable_library (op_vars o) (all_entries (headers dk (op_dirs o))) -> Forall (fun f => one_line (fst f)) (headers dk (op_dirs o)) -> names_agree dk o ->
  exists dk' src, lw_main fuel e o dk = (dk', Finished) /\ lookup dk' (op_location o) (txt "PLibrary.cc") = Some (Some src) /\
    forall t it ot n, In (t, it, ot, n) (all_entries (headers dk (op_dirs o))) ->
      exists f content, includes src f /\ include_finds dk' (op_location o :: op_dirs o) f = Some content /\ In (t, it, ot, n) (file_entries (f, Some content)).
Proof. exact lw_includes. Qed.
Print Assumptions C57_includes.

(** C57, without that condition: of two files of the same name in different directories only one is included, and the class of the other is missing. *)
Theorem C57_includes_refuted : exists dk' t1 t2, lw_main 100 plain_setting two_options two_dirs = (dk', Finished) /\
  lookup two_dirs (txt "b") (txt "F.hh") = Some (Some t2) /\ In (TSimple, txt "double", txt "double", txt "B") (file_entries (txt "F.hh", Some t2)) /\
  In (TSimple, txt "double", txt "double", txt "B") (all_entries (headers two_dirs (op_dirs two_options))) /\
  include_finds dk' (op_location two_options :: op_dirs two_options) (txt "F.hh") = Some t1 /\
  ~ In (TSimple, txt "double", txt "double", txt "B") (file_entries (txt "F.hh", Some t1)).
Proof. exact same_file. Qed.
Print Assumptions C57_includes_refuted.

(** C57. The time in the comment is one line, and tells the time. *)
Theorem C57_time : (forall t, one_line (now_text t)) /\ forall t t', later t -> later t' -> now_text t = now_text t' -> t = t'.
Proof. exact (conj now_one_line now_injective). Qed.
Print Assumptions C57_time.

Example C57_case_time : later (mkTm 114 8 12 9 5 3) /\ now_text (mkTm 114 8 12 9 5 3) = txt "2014-9-12 9:05:03".
Proof. split; [unfold later; cbn; repeat split; discriminate | vm_compute; reflexivity]. Qed.
