(** Model of src/lw/lw.cpp, the library writer: a run of the program for given options (boost::program_options is not modelled; the compiler
    commands it starts for --compile are in LwCompile.v). *)
From Coq Require Import ZArith List Bool Ascii String.
From Verif Require Import Model.Outcome Model.Stream Model.SeriesIO Model.Lw Model.LwText.
Import ListNotations.
Local Open Scope Z_scope.

(** ** Files *)

(** What is in a directory: names and contents; [None] cannot be opened as a file (a directory). Simplified: no permissions, no full disks. *)
Definition folder : Type := list (text * option text).
(** Directories by the paths that lead to them (different paths may lead to the same one). *)
Record disk : Type := mkDisk { dk_dir : text -> option nat; dk_files : nat -> folder }.

(** std::ofstream::open (452, 461, 503) and the text written until close: the file is replaced or made; nothing happens if it cannot be opened. *)
Fixpoint file_put (name t : text) (d : folder) : folder :=
  match d with
  | [] => [(name, Some t)]
  | (n, x) :: d' => if text_eqb n name then (n, match x with Some _ => Some t | None => None end) :: d' else (n, x) :: file_put name t d'
  end.
Definition write_file (loc name t : text) (dk : disk) : disk :=
  match dk_dir dk loc with
  | Some k => mkDisk (dk_dir dk) (fun j => if Nat.eqb j k then file_put name t (dk_files dk k) else dk_files dk j)
  | None => dk
  end.

(** 163-188: the constructor of Collection and scandir. [order] is the order in which directory_iterator finds the files; a path that is not a directory makes
    it throw filesystem_error (a runtime_error). *)
Fixpoint scan_dirs (fuel : nat) (order : folder -> folder) (dk : disk) (dirs : list text) : M coll unit :=
  match dirs with
  | [] => mret tt
  | d :: ds =>
      match dk_dir dk d with
      | Some k =>
          collect fuel (filter (fun fc => is_generated_header (fst fc)) (order (dk_files dk k))) ;;;
          scan_dirs fuel order dk ds
      | None => fun c => RThrow c RuntimeError
      end
  end.

(** ** The log *)

(** 35-41: operator<< for vectors, here of texts. *)
Definition vector_text (v : list text) : text := flat_map (fun s => s ++ txt " ") v.
(** 353-371: Collection::write. *)
Definition log_text (c : coll) : outcome text :=
  let* b := for_types c (fun i j it ot =>
    let* n1 := cell TSimple c i j in
    let* n2 := cell TFunc c i j in
    let* n3 := cell TPwSimple c i j in
    let* n4 := cell TPwFunc c i j in
    let* n5 := cell TBasis c i j in
    Ok (ln (it ++ txt ", " ++ ot ++ txt ": ") ++ ln (txt "  PSimpleBase: " ++ vector_text n1) ++ [nl] ++ ln (txt "  PFuncBase: " ++ vector_text n2) ++ [nl] ++
        ln (txt "  PPieceWiseSimpleBase: " ++ vector_text n3) ++ [nl] ++ ln (txt "  PPieceWiseFuncBase: " ++ vector_text n4) ++ [nl] ++
        ln (txt "  PBasisSets: " ++ vector_text n5) ++ [nl])) in
  Ok (ln (txt "Files containing PSimpleBase, PFuncBase, PPieceWiseSimpleBase, PPieceWiseFuncBase, or PBasisSets: ") ++ ln (txt "  " ++ vector_text (co_file c)) ++ [nl] ++
      ln (txt "Functions, & BasisSets: ") ++ b).

(** ** Time *)

(** struct tm, as far as used (54-75). *)
Record tm : Type := mkTm { tm_year : Z; tm_mon : Z; tm_mday : Z; tm_hour : Z; tm_min : Z; tm_sec : Z }.
(** 57-69: minutes and seconds with two digits. *)
Definition padded (z : Z) : text := if z <? 10 then txt "0" ++ print_int z else print_int z.
(** 52-78: now. *)
Definition now_text (t : tm) : text :=
  print_int (tm_year t + 1900) ++ txt "-" ++ print_int (tm_mon t + 1) ++ txt "-" ++ print_int (tm_mday t) ++ txt " " ++
  print_int (tm_hour t) ++ txt ":" ++ padded (tm_min t) ++ txt ":" ++ padded (tm_sec t).

(** ** main *)

(** How the program ends: by returning, by an exception that nothing catches, by exit(1), or undefined. *)
Inductive ending : Type := Finished | Terminated | Exited | Undefined (r : ub_reason) | OutOfFuel.

(** The options (377-398). *)
Record options : Type := mkOptions { op_location : text; op_dirs : list text; op_vars : list text; op_compile : bool }.
(** What else a run depends on: the order of the files in each of the two scans, the two times, version.hh, and the text of PExtern.cc (1012-1585). *)
Record setting : Type := mkSetting { se_order1 : folder -> folder; se_order2 : folder -> folder; se_time1 : tm; se_time2 : tm;
                                     se_version : text; se_url : text; se_commit : text; se_extern : text }.
Definition stamp_at (e : setting) (t : tm) : stamp := mkStamp (now_text t) (se_version e) (se_url e) (se_commit e).

(** 450-455 and 459-464: open the file, then collect, log and write. Nothing is written before the scan is over. *)
Definition lw_write (fuel : nat) (o : options) (name : text) (order : folder -> folder) (write : coll -> outcome text) (dk : disk) : disk * ending :=
  let dk1 := write_file (op_location o) name [] dk in
  match scan_dirs fuel order dk1 (op_dirs o) coll_empty with
  | RRet c _ =>
      match (let* _ := log_text c in write c) with
      | Ok t => (write_file (op_location o) name t dk1, Finished)
      | Throw _ => (dk1, Terminated)
      | Exit => (dk1, Exited)
      | UB r => (dk1, Undefined r)
      | NoFuel => (dk1, OutOfFuel)
      end
  | RThrow _ _ => (dk1, Terminated)
  | RExit => (dk1, Exited)
  | RUB r => (dk1, Undefined r)
  | RNoFuel => (dk1, OutOfFuel)
  end.

(** 435-567: main, behind the options. *)
Definition lw_main (fuel : nat) (e : setting) (o : options) (dk : disk) : disk * ending :=
  match lw_write fuel o (txt "PLibrary.hh") (se_order1 e) (header_text (stamp_at e (se_time1 e)) (op_vars o)) dk with
  | (dk1, Finished) =>
      match lw_write fuel o (txt "PLibrary.cc") (se_order2 e) (source_text (stamp_at e (se_time2 e)) (op_vars o)) dk1 with
      | (dk2, Finished) => (if op_compile o then write_file (op_location o) (txt "PExtern.cc") (se_extern e) dk2 else dk2, Finished)
      | r => r
      end
  | r => r
  end.
