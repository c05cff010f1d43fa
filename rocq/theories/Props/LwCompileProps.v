(** C67: the commands of the library writer's --compile. *)
From Coq Require Import ZArith List Bool Ascii String.
From Verif Require Import Model.Outcome Model.Stream Model.Lw Model.LwText Model.LwMain Model.LwCompile.
From Verif Require Import Spec.Lw Spec.LwText Spec.LwMain Spec.LwCompile.
From Verif Require Import Proofs.LwLibP Proofs.LwMainP Proofs.LwCompileP.
Import ListNotations.
Open Scope list_scope.

(** C67. For a location, directories, compiler and flags made of ordinary characters, the shell is given one command each time, with the arguments meant:
    compile the library with every directory on the include path, compile the C interface, link the two objects just made. *)
Theorem C67_library_arguments : forall t o cxx flags, word_options t o cxx flags ->
  sh_commands (library_command t o) = Some [compile_args cxx flags (op_dirs o) (in_dir (op_location o) (txt "PLibrary.cc")) (in_dir (op_location o) (txt "PLibrary.o"))].
Proof. exact library_words. Qed.
Print Assumptions C67_library_arguments.
Theorem C67_extern_arguments : forall t o cxx flags, word_options t o cxx flags ->
  sh_commands (extern_command t o) = Some [compile_args cxx flags [] (in_dir (op_location o) (txt "PExtern.cc")) (in_dir (op_location o) (txt "PExtern.o"))].
Proof. exact extern_words. Qed.
Print Assumptions C67_extern_arguments.
Theorem C67_link_arguments : forall t o cxx flags, word_options t o cxx flags ->
  sh_commands (link_command t o) = Some [link_args cxx (if tl_dylib t then txt "-dynamiclib" else txt "-shared")
    (in_dir (op_location o) (if tl_dylib t then txt "libpextern.dylib" else txt "libpextern.so"))
    [in_dir (op_location o) (txt "PExtern.o"); in_dir (op_location o) (txt "PLibrary.o")]].
Proof. exact link_words. Qed.
Print Assumptions C67_link_arguments.
(** The paths are those of files at the location. *)
Theorem C67_paths : forall loc name, names_file (in_dir loc name) loc name.
Proof. exact in_dir_names. Qed.
Print Assumptions C67_paths.

Example C67_case_arguments : word_options plain_tools lib_options [txt "g++"] [txt "-O3"; txt "-fPIC"] /\
  sh_commands (library_command plain_tools lib_options) =
    Some [map txt ["g++"; "-c"; "lib/PLibrary.cc"; "-o"; "lib/PLibrary.o"; "-O3"; "-fPIC"; "-Ilib"]%string] /\
  sh_commands (link_command plain_tools lib_options) = Some [map txt ["g++"; "-shared"; "-o"; "lib/libpextern.so"; "lib/PExtern.o"; "lib/PLibrary.o"]%string].
Proof. exact (conj plain_words plain_commands). Qed.

(** C67. A run with --compile starts the three commands in this order; the first finds the two files of the library, the second also PExtern.cc (unless the
    first has made that impossible). *)
Theorem C67_run : forall fuel sh e t o dk, setting_ok e -> enough fuel (headers dk (op_dirs o)) -> can_write o dk ->
  all_there dk (op_dirs o) -> NoDup (all_entries (headers dk (op_dirs o))) ->
  writable_library (op_vars o) (all_entries (headers dk (op_dirs o))) -> Forall (fun f => one_line (fst f)) (headers dk (op_dirs o)) ->
  op_compile o = true -> shell_starts sh ->
  exists s dk1 dk1' dk2 dk3 ht src, lw_run fuel sh e t o dk = (s, Finished) /\
    sd_log s = [(library_command t o, dk1); (extern_command t o, dk2); (link_command t o, dk3)] /\
    lookup dk1 (op_location o) (txt "PLibrary.hh") = Some (Some ht) /\ declares_library (op_vars o) (all_entries (headers dk (op_dirs o))) ht /\
    lookup dk1 (op_location o) (txt "PLibrary.cc") = Some (Some src) /\ defines_library (op_vars o) (all_entries (headers dk (op_dirs o))) src /\
    sh (library_command t o) dk1 = Some dk1' /\
    (dk_dir dk1' (op_location o) <> None -> lookup dk1' (op_location o) (txt "PExtern.cc") <> Some None ->
     lookup dk2 (op_location o) (txt "PExtern.cc") = Some (Some (se_extern e))) /\
    unchanged_but (op_location o) [txt "PExtern.cc"] dk1' dk2 /\
    sh (extern_command t o) dk2 = Some dk3 /\ sh (link_command t o) dk3 = Some (sd_disk s).
Proof. exact compile_run. Qed.
Print Assumptions C67_run.

Example C67_case_run : setting_ok plain_setting /\ enough 300 (headers lib_disk (op_dirs lib_options)) /\ can_write lib_options lib_disk /\ all_there lib_disk (op_dirs lib_options) /\
  NoDup (all_entries (headers lib_disk (op_dirs lib_options))) /\ writable_library sample_var (all_entries (headers lib_disk (op_dirs lib_options))) /\
  Forall (fun f => one_line (fst f)) (headers lib_disk (op_dirs lib_options)) /\ op_compile lib_options = true /\ shell_starts lazy_shell.
Proof.
  destruct lib_case as (H1 & H2 & H3 & H4 & H5 & H6 & H7 & _).
  exact (conj H1 (conj H2 (conj H3 (conj H4 (conj H5 (conj H6 (conj H7 (conj eq_refl lazy_starts)))))))).
Qed.

(** C67. How the program ends does not depend on what the commands do... *)
Theorem C67_status_ignored : forall fuel sh e t o dk, shell_starts sh -> snd (lw_run fuel sh e t o dk) = snd (lw_main fuel e o dk).
Proof. exact ending_same. Qed.
Print Assumptions C67_status_ignored.
(** ... so that a run that ends normally may have made no library. *)
Theorem C67_library_made_refuted : exists sh s, shell_starts sh /\ lw_run 300 sh plain_setting plain_tools lib_options lib_disk = (s, Finished) /\
  lookup (sd_disk s) (txt "lib") (txt "libpextern.so") = None.
Proof. exact nothing_made. Qed.
Print Assumptions C67_library_made_refuted.
(** C67. If no shell can be started the program reads from a null pointer. *)
Theorem C67_no_shell : forall fuel sh e t o dk, (forall cmd d, sh cmd d = None) -> op_compile o = true -> snd (lw_main fuel e o dk) = Finished ->
  snd (lw_run fuel sh e t o dk) = Undefined UBNull.
Proof. exact never_starts. Qed.
Print Assumptions C67_no_shell.

(** C67 refuted for a location with a blank in its name: the compiler is given other files. *)
Theorem C67_blank_refuted : exists t o, tl_cxx t = joined [txt "g++"] /\ tl_cflags t = joined [txt "-O3"; txt "-fPIC"] /\ Forall plain (op_dirs o) /\
  sh_commands (library_command t o) <>
    Some [compile_args [txt "g++"] [txt "-O3"; txt "-fPIC"] (op_dirs o) (in_dir (op_location o) (txt "PLibrary.cc")) (in_dir (op_location o) (txt "PLibrary.o"))].
Proof.
  exists plain_tools, spaced_options. exact (conj eq_refl (conj eq_refl (conj (wo_dirs _ _ _ _ plain_words) (proj2 spaced_words)))).
Qed.
Print Assumptions C67_blank_refuted.

(** C67. A location that is a text with a command between semicolons has that command run, though no such directory exists. *)
Theorem C67_injection : forall fuel sh e t o dk cxx flags a b, setting_ok e -> enough fuel (headers dk (op_dirs o)) -> dk_dir dk (op_location o) = None ->
  all_there dk (op_dirs o) -> NoDup (all_entries (headers dk (op_dirs o))) ->
  writable_library (op_vars o) (all_entries (headers dk (op_dirs o))) -> Forall (fun f => one_line (fst f)) (headers dk (op_dirs o)) ->
  op_compile o = true -> shell_starts sh ->
  tl_cxx t = joined cxx -> command_words cxx -> tl_cflags t = joined flags -> Forall word flags -> Forall plain (op_dirs o) ->
  word a -> command_words b -> op_location o = a ++ txt "; " ++ joined b ++ txt "; " ->
  exists s cmd cs, lw_run fuel sh e t o dk = (s, Finished) /\ In (cmd, dk) (sd_log s) /\ sh_commands cmd = Some cs /\ In b cs.
Proof. exact injected_run. Qed.
Print Assumptions C67_injection.

Example C67_case_injection : word (txt "x") /\ command_words (map txt ["rm"; "-r"; "lib"]%string) /\
  op_location evil_options = txt "x" ++ txt "; " ++ joined (map txt ["rm"; "-r"; "lib"]%string) ++ txt "; " /\
  dk_dir lib_disk (op_location evil_options) = None /\
  sh_commands (library_command plain_tools evil_options) = Some (map (map txt)
    [["g++"; "-c"; "x"]; ["rm"; "-r"; "lib"]; ["/PLibrary.cc"; "-o"; "x"]; ["rm"; "-r"; "lib"]; ["/PLibrary.o"; "-O3"; "-fPIC"; "-Ilib"]]%string).
Proof. exact evil_case. Qed.
