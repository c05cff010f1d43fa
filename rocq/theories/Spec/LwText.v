(** Specification vocabulary for the text of the generated library: a reader of the C++ it is written in, which knows nothing of the writer. *)
From Coq Require Import List Bool Ascii String.
From Verif Require Import Model.Outcome Model.Stream Model.Lw Spec.Lw.
Import ListNotations.

(** ** Tokens *)

(** Words, single punctuation characters and string literals. Blanks separate; // and # lead to the end of the line. (No escapes in literals.) *)
Inductive token : Type := Word (w : text) | Punct (c : ascii) | Str (s : text).

Inductive mode : Type := Plain (word : text) | Slash | Skip | Quoted (s : text).
Definition flush (w : text) (out : list token) : list token := match w with [] => out | _ => Word (rev w) :: out end.
Definition quote : ascii := """"%char.
Definition lex_plain (w : text) (out : list token) (c : ascii) : mode * list token :=
  if word_char c then (Plain (c :: w), out)
  else if Ascii.eqb c quote then (Quoted [], flush w out)
  else if Ascii.eqb c "/" then (Slash, flush w out)
  else if Ascii.eqb c "#" then (Skip, flush w out)
  else if space c then (Plain [], flush w out)
  else (Plain [], Punct c :: flush w out).
Definition lex_step (st : mode * list token) (c : ascii) : mode * list token :=
  match st with
  | (Plain w, out) => lex_plain w out c
  | (Slash, out) => if Ascii.eqb c "/" then (Skip, out) else lex_plain [] (Punct "/" :: out) c
  | (Skip, out) => if Ascii.eqb c nl then (Plain [], out) else (Skip, out)
  | (Quoted s, out) => if Ascii.eqb c quote then (Plain [], Str (rev s) :: out) else (Quoted (c :: s), out)
  end.
Definition lex (st : mode * list token) (t : text) : mode * list token := fold_left lex_step t st.
(** The tokens of a text; none if it ends inside a literal or on a slash. *)
Definition tokens (t : text) : option (list token) :=
  match lex (Plain [], []) t with
  | (Plain w, out) => Some (rev (flush w out))
  | (Skip, out) => Some (rev out)
  | _ => None
  end.

(** ** Reading declarations and definitions *)

(** Word and punctuation tokens from a line of text, to write patterns with. *)
Definition is_word (w : string) (t : token) : bool := match t with Word x => text_eqb x (txt w) | _ => false end.
Definition is_punct (c : ascii) (t : token) : bool := match t with Punct x => Ascii.eqb x c | _ => false end.
(** The tokens left behind a fixed beginning. *)
Fixpoint drop (pat : list (token -> bool)) (l : list token) : option (list token) :=
  match pat, l with
  | [], _ => Some l
  | p :: pat', t :: l' => if p t then drop pat' l' else None
  | _ :: _, [] => None
  end.
(** Template arguments: up to the closing bracket that matches. *)
Fixpoint targs (depth : nat) (l : list token) : option (list token * list token) :=
  match l with
  | [] => None
  | t :: l' =>
      if is_punct ">" t then
        match depth with
        | 0 => Some ([], l')
        | S d => match targs d l' with Some (a, r) => Some (t :: a, r) | None => None end
        end
      else match targs (if is_punct "<" t then S depth else depth) l' with Some (a, r) => Some (t :: a, r) | None => None end
  end.

(** The type  KIND< args >  (given by its tokens). *)
Record ctype : Type := mkType { ty_name : text; ty_args : list token }.
Definition read_type (l : list token) : option (ctype * list token) :=
  match l with
  | Word k :: l' =>
      match drop [is_punct "<"] l' with
      | Some l1 => match targs 0 l1 with Some (a, r) => Some (mkType k a, r) | None => None end
      | None => None
      end
  | _ => None
  end.

(** The parameter list  ( std::string name, TYPE [*]&var [, int N] ) : the type, whether it is a pointer, the name, whether N follows. *)
Record params : Type := mkParams { pa_type : ctype; pa_pointer : bool; pa_var : text; pa_size : bool }.
Definition read_params (l : list token) : option (params * list token) :=
  match drop [is_punct "("; is_word "std"; is_punct ":"; is_punct ":"; is_word "string"; is_word "name"; is_punct ","] l with
  | Some l1 =>
      match read_type l1 with
      | Some (ty, l2) =>
          let (ptr, l3) := match drop [is_punct "*"] l2 with Some r => (true, r) | None => (false, l2) end in
          match drop [is_punct "&"] l3 with
          | Some (Word v :: l4) =>
              match drop [is_punct ")"] l4 with
              | Some r => Some (mkParams ty ptr v false, r)
              | None => match drop [is_punct ","; is_word "int"; is_word "N"; is_punct ")"] l4 with Some r => Some (mkParams ty ptr v true, r) | None => None end
              end
          | _ => None
          end
      | None => None
      end
  | None => None
  end.

(** An object  CLASS[< args >]() or CLASS[< args >](N) : the class, its template arguments if any, whether N is passed. *)
Record object : Type := mkObject { ob_class : text; ob_args : option (list token); ob_size : bool }.
Definition read_object (l : list token) : option (object * list token) :=
  match l with
  | Word n :: l1 =>
      match (match drop [is_punct "<"] l1 with
             | Some l2 => match targs 0 l2 with Some (a, r) => Some (Some a, r) | None => None end
             | None => Some (None, l1)
             end) with
      | Some (a, l3) =>
          match drop [is_punct "("; is_punct ")"] l3 with
          | Some r => Some (mkObject n a false, r)
          | None => match drop [is_punct "("; is_word "N"; is_punct ")"] l3 with Some r => Some (mkObject n a true, r) | None => None end
          end
      | None => None
      end
  | _ => None
  end.
(** What is assigned:  new OBJECT,  or  ALIAS( OBJECT )  for a type alias in force. *)
Definition read_value (alias : option (text * ctype)) (l : list token) : option (option ctype * object * list token) :=
  match drop [is_word "new"] l with
  | Some l1 => match read_object l1 with Some (o, r) => Some (None, o, r) | None => None end
  | None =>
      match alias, l with
      | Some (a, ty), Word w :: l1 =>
          if text_eqb w a then
            match drop [is_punct "("] l1 with
            | Some l2 =>
                match read_object l2 with
                | Some (o, l3) => match drop [is_punct ")"] l3 with Some r => Some (Some ty, o, r) | None => None end
                | None => None
                end
            | None => None
            end
          else None
      | _, _ => None
      end
  end.

(** A case of the body: on this name, this object is assigned to this variable, copied into this type or by pointer. *)
Record branch : Type := mkBranch { br_name : text; br_var : text; br_as : option ctype; br_object : object }.
(**  if( name == "...") { VAR = VALUE; return;}  *)
Definition read_branch (alias : option (text * ctype)) (l : list token) : option (branch * list token) :=
  match drop [is_word "if"; is_punct "("; is_word "name"; is_punct "="; is_punct "="] l with
  | Some (Str n :: l1) =>
      match drop [is_punct ")"; is_punct "{"] l1 with
      | Some (Word v :: l2) =>
          match drop [is_punct "="] l2 with
          | Some l3 =>
              match read_value alias l3 with
              | Some (ty, o, l4) =>
                  match drop [is_punct ";"; is_word "return"; is_punct ";"; is_punct "}"] l4 with
                  | Some r => Some (mkBranch n v ty o, r)
                  | None => None
                  end
              | None => None
              end
          | None => None
          end
      | _ => None
      end
  | _ => None
  end.

(** The cases, one after the other; behind the last stands the throw, perhaps behind an else, and the end of the function. *)
Definition read_throw (l : list token) : option (list token) :=
  match drop [is_word "throw"; is_word "std"; is_punct ":"; is_punct ":"; is_word "runtime_error"; is_punct "("] l with
  | Some (Str _ :: l1) =>
      match drop [is_punct "+"; is_word "name"; is_punct "+"] l1 with
      | Some (Str _ :: l2) => drop [is_punct ")"; is_punct ";"; is_punct "}"] l2
      | _ => None
      end
  | _ => None
  end.
Fixpoint read_branches (fuel : nat) (alias : option (text * ctype)) (after_if : bool) (l : list token) : option (list branch * list token) :=
  match fuel with
  | 0 => None
  | S k =>
      match read_branch alias l with
      | Some (b, l1) => match read_branches k alias true l1 with Some (bs, r) => Some (b :: bs, r) | None => None end
      | None =>
          match read_throw (if after_if then match drop [is_word "else"] l with Some l1 => l1 | None => l end else l) with
          | Some r => Some ([], r)
          | None => None
          end
      end
  end.
(**  typedef TYPE ALIAS;  *)
Definition read_alias (l : list token) : option (option (text * ctype) * list token) :=
  match drop [is_word "typedef"] l with
  | Some l1 =>
      match read_type l1 with
      | Some (ty, Word a :: l2) => match drop [is_punct ";"] l2 with Some r => Some (Some (a, ty), r) | None => None end
      | _ => None
      end
  | None => Some (None, l)
  end.

(** A function definition and its meaning. *)
Record func_def : Type := mkFunc { fn_params : params; fn_branches : list branch }.
Definition read_def (l : list token) : option (func_def * list token) :=
  match drop [is_word "void"; is_word "PLibrary"; is_punct ":"; is_punct ":"; is_word "checkout"] l with
  | Some l1 =>
      match read_params l1 with
      | Some (ps, l2) =>
          match drop [is_punct "{"] l2 with
          | Some l3 =>
              match read_alias l3 with
              | Some (al, l4) => match read_branches (List.length l4) al false l4 with Some (bs, r) => Some (mkFunc ps bs, r) | None => None end
              | None => None
              end
          | None => None
          end
      | None => None
      end
  | None => None
  end.
Definition read_decl (l : list token) : option (params * list token) :=
  match drop [is_word "void"; is_word "checkout"] l with
  | Some l1 =>
      match read_params l1 with
      | Some (ps, l2) => match drop [is_punct ";"] l2 with Some r => Some (ps, r) | None => None end
      | None => None
      end
  | None => None
  end.

(** As many of them as there are. *)
Fixpoint read_many {A : Type} (fuel : nat) (read : list token -> option (A * list token)) (l : list token) : list A * list token :=
  match fuel with
  | 0 => ([], l)
  | S k => match read l with Some (a, r) => let (l', rest) := read_many k read r in (a :: l', rest) | None => ([], l) end
  end.

(** The whole files. *)
Definition read_header (t : text) : option (list params) :=
  match tokens t with
  | Some ts =>
      match drop [is_word "namespace"; is_word "PRISMS"; is_punct "{"; is_word "namespace"; is_word "PLibrary"; is_punct "{"] ts with
      | Some l => let (ds, r) := read_many (List.length l) read_decl l in
                  match drop [is_punct "}"; is_punct "}"] r with Some [] => Some ds | _ => None end
      | None => None
      end
  | None => None
  end.
Definition read_source (t : text) : option (list func_def) :=
  match tokens t with
  | Some ts =>
      match drop [is_word "namespace"; is_word "PRISMS"; is_punct "{"] ts with
      | Some l => let (ds, r) := read_many (List.length l) read_def l in
                  match drop [is_punct "}"] r with Some [] => Some ds | _ => None end
      | None => None
      end
  | None => None
  end.

(** Calling a function: the first case with this name; otherwise the throw. *)
Fixpoint run_branches (bs : list branch) (n : text) : outcome branch :=
  match bs with
  | [] => Throw RuntimeError
  | b :: bs' => if text_eqb n (br_name b) then Ok b else run_branches bs' n
  end.
Definition call_def (f : func_def) (n : text) : outcome branch := run_branches (fn_branches f) n.

(** ** What is expected *)

(** A type that can be written into the text: no quote, slash, hash, backslash or line break. Its tokens. *)
Definition writable (t : text) : Prop := forall c, In c t -> c <> quote /\ c <> "/"%char /\ c <> "#"%char /\ c <> "\"%char /\ c <> nl.
Definition toks (t : text) : list token := match lex (Plain [], []) t with (Plain w, out) => rev (flush w out) | (_, out) => rev out end.
(** The brackets of a list of tokens match. *)
Fixpoint closed (depth : nat) (l : list token) : bool :=
  match l with
  | [] => match depth with 0 => true | S _ => false end
  | t :: l' =>
      if is_punct ">" t then match depth with 0 => false | S d => closed d l' end
      else closed (if is_punct "<" t then S depth else depth) l'
  end.
(** The template arguments of a signature. *)
Definition pair_toks (it ot : text) : list token := toks it ++ [Punct ","] ++ toks ot.

(** Class templates by name; which are handed out by pointer, and which take a size. *)
Definition spelled_kind (k : outkind) : text :=
  match k with
  | KSimpleFunction => txt "PSimpleFunction" | KFunction => txt "PFunction" | KBasisSet => txt "PBasisSet" | KSimpleBase => txt "PSimpleBase"
  | KFuncBase => txt "PFuncBase" | KPwSimpleBase => txt "PPieceWiseSimpleBase" | KPwFuncBase => txt "PPieceWiseFuncBase" | KBasisSetBase => txt "PBasisSetBase"
  end.
Definition by_pointer (k : outkind) : bool := match k with KSimpleFunction | KFunction | KBasisSet => false | _ => true end.
Definition sized (k : outkind) : bool := match k with KBasisSet | KBasisSetBase => true | _ => false end.
Definition type_of (s : sig) : ctype := mkType (spelled_kind (sg_kind s)) (pair_toks (sg_in s) (sg_out s)).

(** The parameters [p] are those of the signature [s]. *)
Definition params_of (s : sig) (p : params) : Prop := pa_type p = type_of s /\ pa_pointer p = by_pointer (sg_kind s) /\ pa_size p = sized (sg_kind s).
(** The branch assigns, to the parameter of [p], a new object [x] (copied into the parameter's type unless it is a pointer), named [n]. *)
Definition hands_out (s : sig) (p : params) (n : text) (x : inst) (b : branch) : Prop :=
  br_name b = n /\ br_var b = pa_var p /\ br_as b = (if by_pointer (sg_kind s) then None else Some (pa_type p)) /\
  br_object b = mkObject (in_class x) (option_map toks (in_arg x)) (sized (sg_kind s)).
(** The definition read from the text is this one. *)
Definition def_of (f : checkout) (d : func_def) : Prop :=
  params_of (ck_sig f) (fn_params d) /\
  Forall2 (fun nx b => hands_out (ck_sig f) (fn_params d) (fst nx) (snd nx) b) (ck_cases f) (fn_branches d).

(** A text without line break. *)
Definition one_line (t : text) : Prop := ~ In nl t.

(** A library that can be written as text: classes have names, types and containers can stand in the text and their brackets match. *)
Record writable_library (var : list text) (es : list entry) : Prop := {
  wl_names : forall t it ot n, In (t, it, ot, n) es -> n <> [];
  wl_types : forall s n x, offered var es s n x -> writable (sg_in s) /\ writable (sg_out s) /\ closed 0 (pair_toks (sg_in s) (sg_out s)) = true;
  wl_containers : forall v, In v var -> writable v /\ closed 0 (toks v) = true
}.

(** The class template that a checkout function names, by base class. *)
Definition base_kind (cls : text) (k : outkind) : Prop := by_pointer k = true /\ spelled_kind k = cls.

(** ** What the C interface needs *)

(** A class that the signature [s] can hand out is filed, under its types or as a template over the container. *)
Definition provided (var : list text) (es : list entry) (s : sig) : Prop :=
  exists n, In (table_of (sg_kind s), sg_in s, sg_out s, n) es /\ (sg_in s <> txt "VarContainer" \/ table_of (sg_kind s) = TBasis) \/
            In (table_of (sg_kind s), txt "VarContainer", sg_out s, n) es /\ In (sg_in s) var /\ table_of (sg_kind s) <> TBasis.
