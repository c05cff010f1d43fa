(** Model of src/lw/lw.cpp 467-565: the commands --compile starts. *)
From Coq Require Import ZArith List Bool Ascii String.
From Verif Require Import Model.Outcome Model.Stream Model.Lw Model.LwText Model.LwMain.
Import ListNotations.
Local Open Scope Z_scope.

(** ** The commands *)

(** The options --cxx, --cflags and --dylib (392-394). *)
Record tools : Type := mkTools { tl_cxx : text; tl_cflags : text; tl_dylib : bool }.

(** fs::path(location) / name (470-471, 474, 500-501, 508, 532-537, 544-549): a slash between, unless there is one. *)
Definition in_dir (loc name : text) : text :=
  match rev loc with
  | [] => name
  | c :: _ => if Ascii.eqb c "/" then loc ++ name else loc ++ "/"%char :: name
  end.

(** 470-477: PLibrary.cc, with a -I for each directory. *)
Definition library_command (t : tools) (o : options) : text :=
  tl_cxx t ++ txt " -c " ++ in_dir (op_location o) (txt "PLibrary.cc") ++ txt " -o " ++ in_dir (op_location o) (txt "PLibrary.o") ++ txt " " ++
  tl_cflags t ++ txt " " ++ flat_map (fun d => txt "-I" ++ d ++ txt " ") (op_dirs o).
(** 500-508: PExtern.cc. *)
Definition extern_command (t : tools) (o : options) : text :=
  tl_cxx t ++ txt " -c " ++ in_dir (op_location o) (txt "PExtern.cc") ++ txt " -o " ++ in_dir (op_location o) (txt "PExtern.o") ++ txt " " ++ tl_cflags t.
(** 531-554: the shared library. *)
Definition link_command (t : tools) (o : options) : text :=
  tl_cxx t ++ (if tl_dylib t then txt " -dynamiclib -o " else txt " -shared -o ") ++
  in_dir (op_location o) (if tl_dylib t then txt "libpextern.dylib" else txt "libpextern.so") ++ txt " " ++
  in_dir (op_location o) (txt "PExtern.o") ++ txt " " ++ in_dir (op_location o) (txt "PLibrary.o").

(** ** popen *)

(** popen(command, "r") and reading its output to the end (479-486, 510-517, 556-563), for given actions of the shell on the files; [None] if
    popen returns NULL, which fgets then dereferences. Neither pclose nor a look at the exit status follows. [sd_log] records the commands
    started and the files they found; the streams stay open. *)
Record started : Type := mkStarted { sd_disk : disk; sd_log : list (text * disk) }.
Definition popen (sh : text -> disk -> option disk) (cmd : text) (s : started) : outcome started :=
  match sh cmd (sd_disk s) with
  | Some dk => Ok (mkStarted dk (sd_log s ++ [(cmd, sd_disk s)]))
  | None => UB UBNull
  end.

(** 467-565: the three commands; PExtern.cc is written (500-505) between the first and the second. *)
Definition lw_compile (sh : text -> disk -> option disk) (e : setting) (t : tools) (o : options) (s : started) : outcome started :=
  let* s1 := popen sh (library_command t o) s in
  let* s2 := popen sh (extern_command t o) (mkStarted (write_file (op_location o) (txt "PExtern.cc") (se_extern e) (sd_disk s1)) (sd_log s1)) in
  popen sh (link_command t o) s2.

(** 440-567: main behind the options: the two files, the commands, and return 0. *)
Definition lw_run (fuel : nat) (sh : text -> disk -> option disk) (e : setting) (t : tools) (o : options) (dk : disk) : started * ending :=
  match lw_main fuel e (mkOptions (op_location o) (op_dirs o) (op_vars o) false) dk with
  | (dk1, Finished) =>
      if op_compile o then
        match lw_compile sh e t o (mkStarted dk1 []) with
        | Ok s => (s, Finished)
        | Throw _ => (mkStarted dk1 [], Terminated)
        | Exit => (mkStarted dk1 [], Exited)
        | UB r => (mkStarted dk1 [], Undefined r)
        | NoFuel => (mkStarted dk1 [], OutOfFuel)
        end
      else (mkStarted dk1 [], Finished)
  | (dk1, r) => (mkStarted dk1 [], r)
  end.

(** ** The shell *)

(** The commands in a text, as the shell that popen starts reads them (POSIX sh, 2.3 and 2.9): words between blanks, commands between semicolons or
    newlines. [None] for texts with characters that mean more than themselves, an assignment, a reserved word or an empty command. *)
Definition ordinary (c : ascii) : bool :=
  let n := nat_of_ascii c in
  (Nat.leb 48 n && Nat.leb n 57) || (Nat.leb 65 n && Nat.leb n 90) || (Nat.leb 97 n && Nat.leb n 122) ||
  existsb (Ascii.eqb c) (txt "/.-_+,:@%=").
Definition blank (c : ascii) : bool := Ascii.eqb c " " || Ascii.eqb c (ascii_of_nat 9).
Definition reserved : list text := map txt ["case"; "do"; "done"; "elif"; "else"; "esac"; "fi"; "for"; "if"; "in"; "then"; "until"; "while"]%string.
Definition a_command (w : text) : bool := negb (existsb (Ascii.eqb "=") w) && negb (existsb (text_eqb w) reserved).
Definition add_word (w : text) (l : list text) : list text := match w with [] => l | _ => l ++ [w] end.
Definition add_command (l : list text) (acc : list (list text)) : option (list (list text)) :=
  match l with
  | [] => None
  | w :: _ => if a_command w then Some (acc ++ [l]) else None
  end.
Fixpoint sh_read (t w : text) (l : list text) (acc : list (list text)) : option (list (list text)) :=
  match t with
  | [] => match add_word w l with [] => Some acc | l' => add_command l' acc end
  | c :: t' =>
      if ordinary c then sh_read t' (w ++ [c]) l acc
      else if blank c then sh_read t' [] (add_word w l) acc
      else if Ascii.eqb c ";" then
        match add_command (add_word w l) acc with Some acc' => sh_read t' [] [] acc' | None => None end
      else if Ascii.eqb c nl then
        match add_word w l with
        | [] => sh_read t' [] [] acc
        | l' => match add_command l' acc with Some acc' => sh_read t' [] [] acc' | None => None end
        end
      else None
  end.
Definition sh_commands (t : text) : option (list (list text)) := sh_read t [] [] [].
