(** Specification vocabulary for runs of the library writer. *)
From Coq Require Import ZArith List Bool Ascii String Permutation.
From Verif Require Import Model.Outcome Model.Stream Model.Lw Model.LwText Model.LwMain Spec.Lw Spec.LwText.
Import ListNotations.

(** The file of that name in a folder, at a path. *)
Fixpoint file_at (name : text) (d : folder) : option (option text) :=
  match d with
  | [] => None
  | (n, x) :: d' => if text_eqb n name then Some x else file_at name d'
  end.
Definition lookup (dk : disk) (path name : text) : option (option text) :=
  match dk_dir dk path with Some k => file_at name (dk_files dk k) | None => None end.

(** The headers in the directories given. *)
Definition headers (dk : disk) (dirs : list text) : list (text * option text) :=
  flat_map (fun d => match dk_dir dk d with Some k => filter (fun fc => is_generated_header (fst fc)) (dk_files dk k) | None => [] end) dirs.
Definition all_there (dk : disk) (dirs : list text) : Prop := forall d, In d dirs -> dk_dir dk d <> None.

(** Texts declare, and define, the library of [es]. *)
Definition declares_library (var : list text) (es : list entry) (t : text) : Prop :=
  exists ds, read_header t = Some ds /\
    (forall s, provided var es s -> exists p, In p ds /\ params_of s p) /\
    (forall p, In p ds -> exists s, provided var es s /\ params_of s p).
Definition defines_library (var : list text) (es : list entry) (t : text) : Prop :=
  exists fds, read_source t = Some fds /\
    (forall s, provided var es s -> exists d, In d fds /\ params_of s (fn_params d)) /\
    (forall s n x, offered var es s n x -> exists d b, In d fds /\ params_of s (fn_params d) /\ call_def d n = Ok b /\ hands_out s (fn_params d) n x b) /\
    (forall d n, In d fds -> exists s, provided var es s /\ params_of s (fn_params d) /\
       (call_def d n = Throw RuntimeError \/ exists x b, call_def d n = Ok b /\ offered var es s n x /\ hands_out s (fn_params d) n x b)).

(** Nothing but the files of these names at this location differs. *)
Definition unchanged_but (loc : text) (names : list text) (dk dk' : disk) : Prop :=
  dk_dir dk' = dk_dir dk /\ forall path name, ~ (dk_dir dk path = dk_dir dk loc /\ In name names) -> lookup dk' path name = lookup dk path name.

(** The files a run may write. *)
Definition outputs (o : options) : list text := [txt "PLibrary.hh"; txt "PLibrary.cc"] ++ (if op_compile o then [txt "PExtern.cc"] else []).
(** They can be written. *)
Definition can_write (o : options) (dk : disk) : Prop := dk_dir dk (op_location o) <> None /\ forall name, In name (outputs o) -> lookup dk (op_location o) name <> Some None.

(** The settings in question: directories may be listed in any order; one line each for version, url and commit. *)
Definition any_order (order : folder -> folder) : Prop := forall d, Permutation (order d) d.
Record setting_ok (e : setting) : Prop := {
  so_order1 : any_order (se_order1 e);
  so_order2 : any_order (se_order2 e);
  so_version : one_line (se_version e);
  so_url : one_line (se_url e);
  so_commit : one_line (se_commit e)
}.
(** The fuel suffices for the files. *)
Definition enough (fuel : nat) (fs : list (text * option text)) : Prop := (0 < fuel)%nat /\ forall f t, In (f, Some t) fs -> (List.length t + 1 < fuel)%nat.

(** The file that  #include "name"  finds in PLibrary.cc: one beside it, or in the first of the directories that has one (options -I). *)
Fixpoint include_finds (dk : disk) (dirs : list text) (name : text) : option text :=
  match dirs with
  | [] => None
  | d :: ds => match lookup dk d name with Some (Some t) => Some t | _ => include_finds dk ds name end
  end.

(** A line of a text. *)
Definition has_line (t l : text) : Prop := exists a b, t = a ++ l ++ nl :: b /\ (a = [] \/ exists a', a = a' ++ [nl]).
Definition includes (t name : text) : Prop := has_line t (txt "#include """ ++ name ++ txt """").
(** Headers of the same name, beside the library or in the directories given, are the same; and names are not used twice in a directory. *)
Definition names_agree (dk : disk) (o : options) : Prop :=
  (forall d d' f t t', is_generated_header f = true -> In d (op_location o :: op_dirs o) -> In d' (op_location o :: op_dirs o) -> lookup dk d f = Some (Some t) -> lookup dk d' f = Some (Some t') -> t = t') /\
  forall d k, In d (op_dirs o) -> dk_dir dk d = Some k -> NoDup (map fst (dk_files dk k)).

(** No negative numbers in a time. *)
Definition later (t : tm) : Prop := (0 <= tm_year t + 1900 /\ 0 <= tm_mon t /\ 0 <= tm_mday t /\ 0 <= tm_hour t /\ 0 <= tm_min t /\ 0 <= tm_sec t)%Z.
