(** Model of src/lw/lw.cpp, the library writer: class Collection and the generated checkout functions. *)
From Coq Require Import ZArith List Bool Ascii String.
From Verif Require Import Model.Outcome Model.Stream.
Import ListNotations.
Local Open Scope Z_scope.

(** ** The regular expression of scanline_for_class *)

(** A concatenation of single characters and greedy repetitions, each inside a numbered group: all that the expression of line 306 needs.
    x+ is written as x followed by x*. *)
Inductive atom : Type :=
| One (group : nat) (c : ascii -> bool)
| Star (group : nat) (c : ascii -> bool).

(** boost::regex (Perl syntax): a repetition takes as much as it can and gives back one character at a time; the first match found counts.
    The result lists what each atom matched. *)
Fixpoint match_at (r : list atom) (s : text) : option (list (nat * text)) :=
  match r with
  | [] => Some []
  | One g c :: r' =>
      match s with
      | x :: s' => if c x then option_map (cons (g, [x])) (match_at r' s') else None
      | [] => None
      end
  | Star g c :: r' =>
      (fix star (s : text) : option (list (nat * text)) :=
         match s with
         | x :: s' =>
             match (if c x then star s' else None) with
             | Some ((_, t) :: m) => Some ((g, x :: t) :: m)
             | _ => option_map (cons (g, [])) (match_at r' s)
             end
         | [] => option_map (cons (g, [])) (match_at r' [])
         end) s
  end.

(** boost::regex_search (313): the leftmost position where the expression matches. *)
Fixpoint search (r : list atom) (s : text) : option (list (nat * text)) :=
  match match_at r s with
  | Some m => Some m
  | None => match s with [] => None | _ :: s' => search r s' end
  end.

(** match[g] (320-322). *)
Definition group (g : nat) (m : list (nat * text)) : text :=
  List.concat (map snd (filter (fun p => Nat.eqb (fst p) g) m)).

(** The character classes \s, \w and the dot. *)
Definition word_char (c : ascii) : bool :=
  let n := nat_of_ascii c in
  ((Nat.leb 48 n && Nat.leb n 57) || (Nat.leb 65 n && Nat.leb n 90) || (Nat.leb 97 n && Nat.leb n 122) || Nat.eqb n 95)%bool.
Definition any_char (c : ascii) : bool := true.
Definition lit (g : nat) (s : text) : list atom := map (fun x => One g (Ascii.eqb x)) s.

(** lw.cpp 306. *)
Definition class_regex (cls : text) : list atom :=
  lit 1 (txt "class") ++ [One 1 space; Star 1 space] ++
  [Star 2 word_char] ++
  [Star 3 space] ++ lit 3 (txt ":") ++ [Star 3 space] ++ lit 3 (txt "public") ++ [One 3 space; Star 3 space] ++ lit 3 cls ++
    [Star 3 space] ++ lit 3 (txt "<") ++ [Star 3 space] ++
  [Star 4 any_char] ++
  [Star 5 space] ++ lit 5 (txt ",") ++ [Star 5 space] ++
  [Star 6 any_char] ++
  [Star 7 space] ++ lit 7 (txt ">").

(** lw.cpp 313-322: name, intype and outtype of a declaration in the line. *)
Definition find_class (cls line : text) : option (text * text * text) :=
  match search (class_regex cls) line with
  | Some m => Some (group 2 m, group 4 m, group 6 m)
  | None => None
  end.

(** ** class Collection (147-371) *)

(** The five tables (157-161), selected by name. *)
Inductive tab : Type := TSimple | TFunc | TPwSimple | TPwFunc | TBasis.
Definition table : Type := list (list (list text)).

(** 150-161. *)
Record coll : Type := mkColl {
  co_file : list text;
  co_in : list text;
  co_out : list text;
  co_simple : table;
  co_func : table;
  co_pwsimple : table;
  co_pwfunc : table;
  co_basis : table
}.
Definition coll_empty : coll := mkColl [] [] [] [] [] [] [] [].
Definition co_tab (t : tab) (c : coll) : table :=
  match t with
  | TSimple => co_simple c | TFunc => co_func c | TPwSimple => co_pwsimple c | TPwFunc => co_pwfunc c | TBasis => co_basis c
  end.
Definition co_set (t : tab) (x : table) (c : coll) : coll :=
  match t with
  | TSimple => mkColl (co_file c) (co_in c) (co_out c) x (co_func c) (co_pwsimple c) (co_pwfunc c) (co_basis c)
  | TFunc => mkColl (co_file c) (co_in c) (co_out c) (co_simple c) x (co_pwsimple c) (co_pwfunc c) (co_basis c)
  | TPwSimple => mkColl (co_file c) (co_in c) (co_out c) (co_simple c) (co_func c) x (co_pwfunc c) (co_basis c)
  | TPwFunc => mkColl (co_file c) (co_in c) (co_out c) (co_simple c) (co_func c) (co_pwsimple c) x (co_basis c)
  | TBasis => mkColl (co_file c) (co_in c) (co_out c) (co_simple c) (co_func c) (co_pwsimple c) (co_pwfunc c) x
  end.

(** std::find on a vector of strings, as an index; the size if there is none (239-240, 269-270). *)
Fixpoint text_eqb (a b : text) : bool :=
  match a, b with
  | [], [] => true
  | x :: a', y :: b' => Ascii.eqb x y && text_eqb a' b'
  | _, _ => false
  end.
Fixpoint find_text (l : list text) (x : text) : nat :=
  match l with
  | [] => 0%nat
  | y :: l' => if text_eqb y x then 0%nat else Datatypes.S (find_text l' x)
  end.

(** 237-263: add_intype; the new row has one empty cell per output type. *)
Definition add_intype (intype : text) : M coll Z :=
  do* c := mget in
  let i := find_text (co_in c) intype in
  (if Nat.eqb i (List.length (co_in c)) then
     let row := map (fun _ => @nil text) (co_out c) in
     mput (mkColl (co_file c) (co_in c ++ [intype]) (co_out c) (co_simple c ++ [row]) (co_func c ++ [row]) (co_pwsimple c ++ [row])
             (co_pwfunc c ++ [row]) (co_basis c ++ [row]))
   else mret tt) ;;;
  mret (Z.of_nat i).

(** 276-283: the loop of add_outtype over i < simplefunction.size(), on a table indexed by the same i. *)
Fixpoint push_cells (n : nat) (t : table) : outcome table :=
  match n with
  | 0%nat => Ok t
  | Datatypes.S n' =>
      match t with
      | [] => UB UBOutOfBounds
      | row :: t' => let* r := push_cells n' t' in Ok ((row ++ [[]]) :: r)
      end
  end.

(** 267-287: add_outtype. *)
Definition add_outtype (outtype : text) : M coll Z :=
  do* c := mget in
  let j := find_text (co_out c) outtype in
  (if Nat.eqb j (List.length (co_out c)) then
     let n := List.length (co_simple c) in
     do* a := mlift (push_cells n (co_simple c)) in
     do* b := mlift (push_cells n (co_func c)) in
     do* d := mlift (push_cells n (co_pwsimple c)) in
     do* e := mlift (push_cells n (co_pwfunc c)) in
     do* f := mlift (push_cells n (co_basis c)) in
     mput (mkColl (co_file c) (co_in c) (co_out c ++ [outtype]) a b d e f)
   else mret tt) ;;;
  mret (Z.of_nat j).

(** 327-345: the body of the loop over functiontype; a repeated name ends the program. *)
Definition file_name (i j : Z) (name : text) (t : tab) : M coll unit :=
  do* c := mget in
  do* row := mlift (vget (co_tab t c) i) in
  do* cell := mlift (vget row j) in
  if Nat.eqb (find_text cell name) (List.length cell) then
    do* row' := mlift (vset row j (cell ++ [name])) in
    do* tab' := mlift (vset (co_tab t c) i row') in
    mput (co_set t tab' c)
  else mlift Exit.

(** 289-351: scanline_for_class. *)
Definition scan_class (line cls : text) (tabs : list tab) : M coll bool :=
  match find_class cls line with
  | Some (name, intype, outtype) =>
      do* i := add_intype intype in
      do* j := add_outtype outtype in
      mfor tabs (file_name i j name) ;;;
      mret true
  | None => mret false
  end.

(** 202-222: the base classes looked for in a line, in order, with the tables for each. *)
Definition kinds : list (text * list tab) :=
  [ (txt "PSimpleBase", [TSimple]);
    (txt "PFuncBase", [TFunc]);
    (txt "PPieceWiseSimpleBase", [TSimple; TPwSimple]);
    (txt "PPieceWiseFuncBase", [TFunc; TPwFunc]);
    (txt "PBasisSetBase", [TBasis]) ].
(** found = found || scanline_for_class(...): nothing is looked for after the first match. *)
Fixpoint scan_kinds (line : text) (ks : list (text * list tab)) : M coll bool :=
  match ks with
  | [] => mret false
  | (cls, tabs) :: ks' =>
      do* found := scan_class line cls tabs in
      if found then mret true else scan_kinds line ks'
  end.

(** 224-229: save the file's name, once. *)
Definition add_file (f : text) : M coll unit :=
  mmod (fun c => if Nat.eqb (find_text (co_file c) f) (List.length (co_file c)) then
                   mkColl (co_file c ++ [f]) (co_in c) (co_out c) (co_simple c) (co_func c) (co_pwsimple c) (co_pwfunc c) (co_basis c)
                 else c).

(** 200-230: one line. *)
Definition scan_line (f line : text) : M coll unit :=
  do* found := scan_kinds line kinds in
  if found then add_file f else mret tt.

(** 199: while(std::getline(infile, line)). *)
Fixpoint scan_lines (fuel : nat) (f line : text) (s : istr) : M coll unit :=
  match fuel with
  | 0%nat => fun _ => RNoFuel
  | Datatypes.S k =>
      let (line', s') := getline line s in
      if is_fail s' then mret tt else scan_line f line' ;;; scan_lines k f line' s'
  end.

(** 190-233: scanfile. *)
Definition scan_file (fuel : nat) (f : text) (content : option text) : M coll unit := scan_lines fuel f [] (is_open content).

(** 163-171, 173-188: the constructor scans the headers of the directories, in some order. *)
Definition collect (fuel : nat) (files : list (text * option text)) : M coll unit :=
  mfor files (fun fc => scan_file fuel (fst fc) (snd fc)).

(** 96-112: is_header. *)
Definition ends_with (e s : text) : bool :=
  if Nat.ltb (List.length s) (List.length e) then false else text_eqb (skipn (List.length s - List.length e) s) e.
Definition is_header (s : text) : bool := ends_with (txt ".hh") s.
(** 119-140: is_generated_header. *)
Definition is_generated_header (s : text) : bool :=
  if negb (is_header s) then false
  else if text_eqb s (txt "PLibrary.hh") then false
  else if text_eqb s (txt "PFunction.hh") then false
  else if text_eqb s (txt "PSeriesFunction.hh") then false
  else if text_eqb s (txt "PRealSymFunction.hh") then false
  else if text_eqb s (txt "PComplexSymFunction.hh") then false
  else true.

(** ** The generated library (571-1010) *)

(** The parameter of a checkout function: the class template of the object handed out. *)
Inductive outkind : Type := KSimpleFunction | KFunction | KBasisSet | KSimpleBase | KFuncBase | KPwSimpleBase | KPwFuncBase | KBasisSetBase.

(** A declaration  void checkout( std::string name, KIND< in, out > ... ). *)
Record sig : Type := mkSig { sg_kind : outkind; sg_in : text; sg_out : text }.

(** The class named in  new Class< var >()  or  new Class() : the class and its template argument. *)
Record inst : Type := mkInst { in_class : text; in_arg : option text }.

(** The definition of a checkout function: its cases  if( name == "...") { ...; return;}  in order, and the final throw. *)
Record checkout : Type := mkCheckout { ck_sig : sig; ck_cases : list (text * inst) }.

(** The test  c.function_intype[i] == "VarContainer"  and the loop over var. *)
Definition instances (var : list text) (intype : text) : list (text * option text) :=
  if text_eqb intype (txt "VarContainer") then map (fun v => (v, Some v)) var else [(intype, None)].

(** c.table[i][j] (indices below the table's dimensions, else undefined). *)
Definition cell (t : tab) (c : coll) (i j : nat) : outcome (list text) :=
  let* row := vget (co_tab t c) (Z.of_nat i) in vget row (Z.of_nat j).

(** for i, for j: [f] at the types and cells of (i,j), results in order. *)
Fixpoint for_list {X B : Type} (f : nat -> X -> outcome (list B)) (i : nat) (l : list X) : outcome (list B) :=
  match l with
  | [] => Ok []
  | x :: l' => let* b := f i x in let* r := for_list f (Datatypes.S i) l' in Ok (b ++ r)
  end.
Definition for_types {B : Type} (c : coll) (f : nat -> nat -> text -> text -> outcome (list B)) : outcome (list B) :=
  for_list (fun i it => for_list (fun j ot => f i j it ot) 0 (co_out c)) 0 (co_in c).

(** One block of write_header: for each (i,j), if the cell of [t] is not empty, one declaration per instance (610-745). Basis sets are not
    instantiated per variable container (646-650, 739-743). *)
Definition header_block (var : list text) (c : coll) (k : outkind) (t : tab) : outcome (list sig) :=
  for_types c (fun i j it ot =>
    let* names := cell t c i j in
    if Nat.ltb 0 (List.length names) then
      Ok (match t with
          | TBasis => [mkSig k it ot]
          | _ => map (fun v => mkSig k (fst v) ot) (instances var it)
          end)
    else Ok []).

(** 571-754: write_header (the declarations). *)
Definition write_header (var : list text) (c : coll) : outcome (list sig) :=
  let* a := header_block var c KSimpleFunction TSimple in
  let* b := header_block var c KFunction TFunc in
  let* d := header_block var c KBasisSet TBasis in
  let* e := header_block var c KSimpleBase TSimple in
  let* f := header_block var c KFuncBase TFunc in
  let* g := header_block var c KPwSimpleBase TPwSimple in
  let* h := header_block var c KPwFuncBase TPwFunc in
  let* l := header_block var c KBasisSetBase TBasis in
  Ok (a ++ b ++ d ++ e ++ f ++ g ++ h ++ l).

(** One block of write_source: for each (i,j), if one of the cells of [guards] is not empty, one definition per instance with the cases for the
    cells of [listed] (793-1002). *)
Definition source_block (var : list text) (c : coll) (k : outkind) (guards listed : list tab) (basis : bool) : outcome (list checkout) :=
  for_types c (fun i j it ot =>
    let* gs := for_list (fun _ t => cell t c i j) 0 guards in
    let* ns := for_list (fun _ t => cell t c i j) 0 listed in
    if Nat.ltb 0 (List.length gs) then
      Ok (if basis then [mkCheckout (mkSig k it ot) (map (fun n => (n, mkInst n None)) ns)]
          else map (fun v => mkCheckout (mkSig k (fst v) ot) (map (fun n => (n, mkInst n (snd v))) ns)) (instances var it))
    else Ok []).

(** 756-1010: write_source (the definitions). The PSimpleFunction block lists the piecewise classes a second time (806-807, 819-820). *)
Definition write_source (var : list text) (c : coll) : outcome (list checkout) :=
  let* a := source_block var c KSimpleFunction [TSimple] [TSimple; TPwSimple] false in
  let* b := source_block var c KFunction [TFunc] [TFunc] false in
  let* d := source_block var c KBasisSet [TBasis] [TBasis] true in
  let* e := source_block var c KSimpleBase [TSimple; TPwSimple] [TSimple] false in
  let* f := source_block var c KFuncBase [TFunc; TPwFunc] [TFunc] false in
  let* g := source_block var c KPwSimpleBase [TPwSimple] [TPwSimple] false in
  let* h := source_block var c KPwFuncBase [TPwFunc] [TPwFunc] false in
  let* l := source_block var c KBasisSetBase [TBasis] [TBasis] true in
  Ok (a ++ b ++ d ++ e ++ f ++ g ++ h ++ l).

(** The meaning of the generated function body: the first case whose literal equals the name hands out an object of its class; otherwise
    runtime_error. *)
Fixpoint run_cases (cs : list (text * inst)) (name : text) : outcome inst :=
  match cs with
  | [] => Throw RuntimeError
  | (n, x) :: cs' => if text_eqb name n then Ok x else run_cases cs' name
  end.
Definition run_checkout (f : checkout) (name : text) : outcome inst := run_cases (ck_cases f) name.
