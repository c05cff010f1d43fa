(** Model of src/lw/lw.cpp 375-440: what main does with the options on the command line. *)
From Coq Require Import ZArith List Bool Ascii String.
From Verif Require Import Model.Outcome Model.Stream Model.Lw Model.LwText Model.LwMain Model.LwCompile.
Import ListNotations.
Local Open Scope Z_scope.

(** 388-398: the options given. Simplification: boost's parsing of the words into this (403, po::parse_command_line and po::store) is not modelled;
    it yields the options, throws po::error, or throws something else. *)
Record given : Type := mkGiven {
  gv_help : bool; gv_version : bool; gv_compile : bool; gv_dylib : bool;
  gv_cxx : option text; gv_cflags : option text; gv_location : option text;
  gv_dir : option (list text); gv_var : option (list text) }.
Inductive parsed : Type := Options (g : given) | BadOptions | OtherException.

(** 81-83: the numbers main returns; [Ended] if it ends otherwise (or is undefined). *)
Definition in_command_line : Z := 1.
Definition success : Z := 0.
Definition unhandled : Z := 2.
Inductive status : Type := Returned (n : Z) | Ended (r : ending).

(** 392-398: default_value. *)
Definition or_else {X : Type} (x : option X) (d : X) : X := match x with Some y => y | None => d end.
(** 425: po::notify, which throws (428) if --var is missing and else assigns the variables (378-380); 394, 391: --dylib and --compile are looked up
    later (467, 531). *)
Definition notified (g : given) : option (tools * options) :=
  match gv_var g with
  | None => None
  | Some v => Some (mkTools (or_else (gv_cxx g) (txt "g++")) (or_else (gv_cflags g) (txt "-O3 -fPIC")) (gv_dylib g),
                    mkOptions (or_else (gv_location g) (txt ".")) (or_else (gv_dir g) []) v (gv_compile g))
  end.

(** 375-567: main. *)
Definition lw_command (fuel : nat) (sh : text -> disk -> option disk) (e : setting) (p : parsed) (dk : disk) : started * status :=
  match p with
  | OtherException => (mkStarted dk [], Returned unhandled)
  | BadOptions => (mkStarted dk [], Returned in_command_line)
  | Options g =>
      if gv_help g then (mkStarted dk [], Returned success)
      else if gv_version g then (mkStarted dk [], Returned success)
      else match notified g with
           | None => (mkStarted dk [], Returned in_command_line)
           | Some (t, o) => match lw_run fuel sh e t o dk with
                            | (s, Finished) => (s, Returned success)
                            | (s, r) => (s, Ended r)
                            end
           end
  end.
