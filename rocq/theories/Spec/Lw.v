(** Specification vocabulary for the library writer. *)
From Coq Require Import ZArith List Bool Ascii String.
From Verif Require Import Model.Outcome Model.Stream Model.Lw.
Import ListNotations.

(** The lines of a file; a last line without newline counts if it is not empty. *)
Fixpoint lines_from (acc t : text) : list text :=
  match t with
  | [] => match acc with [] => [] | _ => [rev acc] end
  | c :: t' => if Ascii.eqb c "010"%char then rev acc :: lines_from [] t' else lines_from (c :: acc) t'
  end.
Definition lines_of (f : option text) : list text := match f with Some t => lines_from [] t | None => [] end.

(** Which tables a class belongs in, by its base class. *)
Definition filing : list (text * list tab) :=
  [ (txt "PSimpleBase", [TSimple]); (txt "PFuncBase", [TFunc]); (txt "PPieceWiseSimpleBase", [TSimple; TPwSimple]);
    (txt "PPieceWiseFuncBase", [TFunc; TPwFunc]); (txt "PBasisSetBase", [TBasis]) ].

(** What is to be filed: table, input type, output type, class name. *)
Definition entry : Type := (tab * text * text * text)%type.

(** The first base class that the line declares a class of. *)
Fixpoint first_decl (ks : list (text * list tab)) (line : text) : list entry :=
  match ks with
  | [] => []
  | (cls, tabs) :: ks' =>
      match find_class cls line with
      | Some (name, i, o) => map (fun t => (t, i, o, name)) tabs
      | None => first_decl ks' line
      end
  end.
Definition entries (line : text) : list entry := first_decl filing line.
Definition file_entries (f : text * option text) : list entry := flat_map entries (lines_of (snd f)).
Definition all_entries (fs : list (text * option text)) : list entry := flat_map file_entries fs.

(** The tables hold exactly the entries [es]. *)
Record holds_entries (c : coll) (es : list entry) : Prop := {
  he_in : NoDup (co_in c);
  he_out : NoDup (co_out c);
  he_rows : forall t, List.length (co_tab t c) = List.length (co_in c);
  he_cols : forall t row, In row (co_tab t c) -> List.length row = List.length (co_out c);
  he_cell : forall t i j row names it ot,
    nth_error (co_tab t c) i = Some row -> nth_error row j = Some names -> nth_error (co_in c) i = Some it -> nth_error (co_out c) j = Some ot ->
    NoDup names /\ forall n, In n names <-> In (t, it, ot, n) es;
  he_types : forall t it ot n, In (t, it, ot, n) es -> In it (co_in c) /\ In ot (co_out c)
}.

(** Every type listed was declared. *)
Definition types_used (c : coll) (es : list entry) : Prop :=
  (forall it, In it (co_in c) -> exists t ot n, In (t, it, ot, n) es) /\ (forall ot, In ot (co_out c) -> exists t it n, In (t, it, ot, n) es).

(** ** The generated library *)

(** The table a checkout function hands out classes of. *)
Definition table_of (k : outkind) : tab :=
  match k with
  | KSimpleFunction | KSimpleBase => TSimple
  | KFunction | KFuncBase => TFunc
  | KPwSimpleBase => TPwSimple
  | KPwFuncBase => TPwFunc
  | KBasisSet | KBasisSetBase => TBasis
  end.

(** The class [n] may be handed out as [x] by a function with signature [s]: it is filed under these types, or it is a function filed under
    VarContainer and the input type is one of the containers given on the command line. *)
Inductive offered (var : list text) (es : list entry) (s : sig) (n : text) : inst -> Prop :=
| offered_typed : In (table_of (sg_kind s), sg_in s, sg_out s, n) es ->
    (sg_in s <> txt "VarContainer" \/ table_of (sg_kind s) = TBasis) -> offered var es s n (mkInst n None)
| offered_container : In (table_of (sg_kind s), txt "VarContainer", sg_out s, n) es -> In (sg_in s) var -> table_of (sg_kind s) <> TBasis ->
    offered var es s n (mkInst n (Some (sg_in s))).

(** ** Class declarations *)
Definition blank (w : text) : Prop := Forall (fun c => space c = true) w.
Definition starts_blank (s : text) : Prop := exists c s', s = c :: s' /\ space c = true.

(** The text [s] starts with a declaration of class [n] derived from [cls]< [i], [o] >, blanks being allowed between its parts. The types are
    what stands before the last comma and between it and the last closing bracket. *)
Inductive declares_at (cls n i o : text) : text -> Prop :=
| Declares : forall w1 w2 w3 w4 w5 w6 w7 post,
    blank w1 -> w1 <> [] -> blank w2 -> blank w3 -> blank w4 -> w4 <> [] -> blank w5 -> blank w6 -> blank w7 ->
    Forall (fun c => word_char c = true) n -> ~ starts_blank i -> ~ starts_blank o -> ~ In ","%char o -> ~ In ">"%char post ->
    declares_at cls n i o (txt "class" ++ w1 ++ n ++ w2 ++ txt ":" ++ w3 ++ txt "public" ++ w4 ++ cls ++ w5 ++ txt "<" ++ w6 ++ i ++ txt "," ++ w7 ++ o ++ txt ">" ++ post).

(** The first declaration in a line. *)
Definition declares (cls line n i o : text) : Prop :=
  exists pre s, line = pre ++ s /\ declares_at cls n i o s /\
    forall pre' s' n' i' o', line = pre' ++ s' -> declares_at cls n' i' o' s' -> (List.length pre <= List.length pre')%nat.

(** An indented declaration as one would write it, with blanks allowed everywhere between tokens and types that neither start nor end with one. *)
Definition ends_blank (s : text) : Prop := starts_blank (rev s).
Inductive spelled (cls n i o : text) : list text -> text -> Prop :=
| Spelled : forall w0 w1 w2 w3 w4 w5 w6 w7 w8 w9 post,
    Forall blank [w0; w1; w2; w3; w4; w5; w6; w7; w8; w9] -> w1 <> [] -> w4 <> [] ->
    Forall (fun c => word_char c = true) n -> n <> [] -> ~ starts_blank i -> ~ ends_blank i -> i <> [] -> ~ starts_blank o -> ~ ends_blank o -> o <> [] ->
    ~ In ">"%char post ->
    spelled cls n i o [w8; w9] (w0 ++ txt "class" ++ w1 ++ n ++ w2 ++ txt ":" ++ w3 ++ txt "public" ++ w4 ++ cls ++ w5 ++ txt "<" ++ w6 ++ i ++ w8 ++ txt "," ++ w7 ++ o ++ w9 ++ txt ">" ++ post).

(** ** The files scanned: headers other than the library's own. *)
Definition scanned_header (s : text) : Prop :=
  (exists p, s = p ++ txt ".hh") /\
  ~ In s (map txt ["PLibrary.hh"; "PFunction.hh"; "PSeriesFunction.hh"; "PRealSymFunction.hh"; "PComplexSymFunction.hh"]%string).
