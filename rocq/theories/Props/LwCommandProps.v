(** C68: the library writer's command line and exit status. *)
From Coq Require Import ZArith List Bool Ascii String.
From Verif Require Import Model.Outcome Model.Stream Model.Lw Model.LwText Model.LwMain Model.LwCompile Model.LwCommand.
From Verif Require Import Spec.Lw Spec.LwText Spec.LwMain Spec.LwCompile Spec.LwCommand.
From Verif Require Import Proofs.LwLibP Proofs.LwMainP Proofs.LwCompileP Proofs.LwCommandP.
Import ListNotations.

(** C68. Unless the command line asks for a library, no file is touched and no command started; the status is 0 exactly if it asks for help or the version
    (which works without the required --var), and 1 or 2 otherwise. *)
Theorem C68_nothing_done : forall fuel sh e p dk, (forall g v, ~ asks_library p g v) ->
  exists n, lw_command fuel sh e p dk = (mkStarted dk [], Returned n) /\ (n = 0%Z <-> asks_information p) /\ (0 <= n <= 2)%Z.
Proof. exact nothing_done. Qed.
Print Assumptions C68_nothing_done.

Example C68_case_help : (forall g v, ~ asks_library (Options help_given) g v) /\ asks_information (Options help_given) /\ gv_var help_given = None.
Proof. repeat split; [intros g v ([= <-] & E & _); discriminate|exists help_given; auto]. Qed.

(** C68. If it does, the run is that with the values given, or the defaults; main returns nothing but 0, and that exactly if the run is finished. *)
Theorem C68_runs : forall fuel sh e p g v t o dk, asks_library p g v -> means g v t o ->
  fst (lw_command fuel sh e p dk) = fst (lw_run fuel sh e t o dk) /\
  (forall n, snd (lw_command fuel sh e p dk) = Returned n -> n = 0%Z) /\
  (snd (lw_command fuel sh e p dk) = Returned 0 <-> snd (lw_run fuel sh e t o dk) = Finished).
Proof. exact asked_runs. Qed.
Print Assumptions C68_runs.

Example C68_case_runs : asks_library (Options plain_given) plain_given sample_var /\ means plain_given sample_var plain_tools plain_meant.
Proof. exact plain_asks. Qed.

(** C68, C57. From the command line to the library: the files at the location declare and define the classes of the directories, for the containers given. *)
Theorem C68_library : forall fuel sh e p g v t o dk, asks_library p g v -> means g v t o -> gv_compile g = false -> setting_ok e ->
  enough fuel (headers dk (op_dirs o)) -> can_write o dk -> all_there dk (op_dirs o) -> NoDup (all_entries (headers dk (op_dirs o))) ->
  writable_library v (all_entries (headers dk (op_dirs o))) -> Forall (fun f => one_line (fst f)) (headers dk (op_dirs o)) ->
  exists dk' ht src, lw_command fuel sh e p dk = (mkStarted dk' [], Returned 0) /\
    lookup dk' (op_location o) (txt "PLibrary.hh") = Some (Some ht) /\ declares_library v (all_entries (headers dk (op_dirs o))) ht /\
    lookup dk' (op_location o) (txt "PLibrary.cc") = Some (Some src) /\ defines_library v (all_entries (headers dk (op_dirs o))) src /\
    unchanged_but (op_location o) [txt "PLibrary.hh"; txt "PLibrary.cc"] dk dk'.
Proof. exact library_asked. Qed.
Print Assumptions C68_library.

Example C68_case_library : gv_compile plain_given = false /\ setting_ok plain_setting /\ enough 300 (headers lib_disk (op_dirs plain_meant)) /\ can_write plain_meant lib_disk /\
  all_there lib_disk (op_dirs plain_meant) /\ NoDup (all_entries (headers lib_disk (op_dirs plain_meant))) /\
  writable_library sample_var (all_entries (headers lib_disk (op_dirs plain_meant))) /\ Forall (fun f => one_line (fst f)) (headers lib_disk (op_dirs plain_meant)).
Proof. exact (conj eq_refl plain_rest). Qed.

(** C68. --dir may be left out: the library then written has no classes, and the status is 0. *)
Theorem C68_no_directories : forall fuel sh e p g v t o dk, asks_library p g v -> means g v t o -> gv_dir g = None -> gv_compile g = false -> setting_ok e -> (0 < fuel)%nat ->
  can_write o dk -> (forall c, In c v -> writable c /\ closed 0 (toks c) = true) ->
  exists dk' ht src, lw_command fuel sh e p dk = (mkStarted dk' [], Returned 0) /\
    lookup dk' (op_location o) (txt "PLibrary.hh") = Some (Some ht) /\ declares_library v [] ht /\
    lookup dk' (op_location o) (txt "PLibrary.cc") = Some (Some src) /\ defines_library v [] src.
Proof. exact no_directories. Qed.
Print Assumptions C68_no_directories.

Example C68_case_no_directories : (asks_library (Options bare_given) bare_given sample_var /\
    means bare_given sample_var (mkTools (txt "clang++") (txt "-O3 -fPIC") true) (mkOptions (txt "lib") [] sample_var false)) /\ gv_dir bare_given = None /\
  can_write (mkOptions (txt "lib") [] sample_var false) lib_disk /\ forall c, In c sample_var -> writable c /\ closed 0 (toks c) = true.
Proof. exact (conj bare_asks (conj eq_refl bare_can)). Qed.

(** C68 refuted: status 0 after asking for a compiled library does not mean that there is one. *)
Theorem C68_status_refuted : exists sh s, shell_starts sh /\ asks_library (Options compile_given) compile_given sample_var /\ gv_compile compile_given = true /\
  lw_command 300 sh plain_setting (Options compile_given) lib_disk = (s, Returned 0) /\ lookup (sd_disk s) (txt "lib") (txt "libpextern.so") = None.
Proof. exact zero_nothing. Qed.
Print Assumptions C68_status_refuted.
