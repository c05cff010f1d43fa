(** Specification vocabulary for the library writer's command line. *)
From Coq Require Import List Bool Ascii String.
From Verif Require Import Model.Outcome Model.Stream Model.Lw Model.LwText Model.LwMain Model.LwCompile Model.LwCommand.
Import ListNotations.

(** The command line asks for a library: it could be read, does not ask for help or the version, and names the variable containers [v]. *)
Definition asks_library (p : parsed) (g : given) (v : list text) : Prop :=
  p = Options g /\ gv_help g = false /\ gv_version g = false /\ gv_var g = Some v.
(** It asks for information. *)
Definition asks_information (p : parsed) : Prop := exists g, p = Options g /\ (gv_help g = true \/ gv_version g = true).

(** An option's value is the one given, or [d] if none is. *)
Definition valued {X : Type} (x : option X) (d y : X) : Prop := (x = Some y) \/ (x = None /\ y = d).
(** What the options mean. *)
Definition means (g : given) (v : list text) (t : tools) (o : options) : Prop :=
  valued (gv_cxx g) (txt "g++") (tl_cxx t) /\ valued (gv_cflags g) (txt "-O3 -fPIC") (tl_cflags t) /\ tl_dylib t = gv_dylib g /\
  valued (gv_location g) (txt ".") (op_location o) /\ valued (gv_dir g) [] (op_dirs o) /\ op_vars o = v /\ op_compile o = gv_compile g.
