(** Specification vocabulary for the commands the library writer starts. *)
From Coq Require Import ZArith List Bool Ascii String.
From Verif Require Import Model.Outcome Model.Stream Model.Lw Model.LwText Model.LwMain Model.LwCompile.
Import ListNotations.

(** Texts in which no character means more than itself to a shell; words; a text that lists words. *)
Definition plain (t : text) : Prop := Forall (fun c => ordinary c = true) t.
Definition word (t : text) : Prop := plain t /\ t <> [].
Fixpoint joined (ws : list text) : text :=
  match ws with
  | [] => []
  | [w] => w
  | w :: ws' => w ++ " "%char :: joined ws'
  end.
(** Words that start a command. *)
Definition command_words (ws : list text) : Prop := Forall word ws /\ exists w ws', ws = w :: ws' /\ a_command w = true.

(** The arguments meant. *)
Definition compile_args (cxx flags dirs : list text) (src obj : text) : list text :=
  cxx ++ [txt "-c"; src; txt "-o"; obj] ++ flags ++ map (fun d => txt "-I" ++ d) dirs.
Definition link_args (cxx : list text) (how lib : text) (objs : list text) : list text := cxx ++ [how; txt "-o"; lib] ++ objs.

(** Options given by words. *)
Record word_options (t : tools) (o : options) (cxx flags : list text) : Prop := {
  wo_cxx : tl_cxx t = joined cxx;
  wo_cxx_words : command_words cxx;
  wo_flags : tl_cflags t = joined flags;
  wo_flag_words : Forall word flags;
  wo_location : plain (op_location o);
  wo_dirs : Forall plain (op_dirs o)
}.

(** What a path names: the directory and the file in it. *)
Definition names_file (path dir name : text) : Prop :=
  path = dir ++ "/"%char :: name \/ (exists d, dir = d ++ ["/"%char]) /\ path = dir ++ name \/ dir = [] /\ path = name.

(** Shells that can be started, whatever they do. *)
Definition shell_starts (sh : text -> disk -> option disk) : Prop := forall cmd dk, sh cmd dk <> None.
