(** Model of piecewise/SimplePiece.hh, PPieceWiseSimpleBase.hh, Piece.hh and PPieceWiseFuncBase.hh (under include/IntegrationTools). *)
From Coq Require Import ZArith List Bool String.
From Verif Require Import Model.Outcome Model.PSimple Model.FuncObj Model.BasisSet.
Import ListNotations.
Local Open Scope Z_scope.

(** A class derived from PFuncBase (PFuncBase.hh 74-139), as used through a PFunction (PFunction.hh 68-132): the virtual functions on its
    objects [T]. *)
Record fclass (V A T : Type) : Type := mkClass {
  k_call : V -> M T A;
  k_call_grad : V -> Z -> M T A;
  k_call_hess : V -> Z -> Z -> M T A;
  k_eval_grad : V -> M T unit;
  k_eval_hess : V -> M T unit;
  k_get : T -> outcome A;
  k_get_grad : T -> Z -> outcome A;
  k_get_hess : T -> Z -> Z -> outcome A;
  k_simple : T -> outcome (simple V A);
  k_grad_simple : T -> Z -> outcome (simple V A);
  k_hess_simple : T -> Z -> Z -> outcome (simple V A)
}.
Arguments k_call {V A T}.
Arguments k_call_grad {V A T}.
Arguments k_call_hess {V A T}.
Arguments k_eval_grad {V A T}.
Arguments k_eval_hess {V A T}.
Arguments k_get {V A T}.
Arguments k_get_grad {V A T}.
Arguments k_get_hess {V A T}.
Arguments k_simple {V A T}.
Arguments k_grad_simple {V A T}.
Arguments k_hess_simple {V A T}.

(** The function classes of the sample library: tests/testlib/MyFunc.hh 262-410. *)
Definition fobj_class {V A : Type} : fclass V A (fobj V A) := {|
  k_call := fo_call;
  k_call_grad := fo_call_grad;
  k_call_hess := fo_call_hess;
  k_eval_grad := fun v o => fo_eval_grads (zseq (Z.of_nat (List.length (fo_grad o)))) v o;
  k_eval_hess := fun v o => fo_eval_hesses
    (List.concat (map (fun i => map (pair (Z.of_nat i)) (zseq (Z.of_nat (List.length (nth i (fo_hess o) []))))) (seq 0 (List.length (fo_hess o))))) v o;
  k_get := fo_get;
  k_get_grad := fo_get_grad;
  k_get_hess := fo_get_hess;
  k_simple := fun o => Ok (fo_val o);
  k_grad_simple := fun o di => vget (fo_grad o) di;
  k_hess_simple := fun o di dj => let* row := vget (fo_hess o) di in vget row dj
|}.

Section Piecewise.
Context {V A : Type}.

(** ** SimplePiece.hh *)

(** SimplePiece.hh 20-21, 27-32: _expr and _condition. Simplification: none of them is an empty PSimpleFunction. *)
Record simple_piece : Type := mkSP { sq_expr : simple V A; sq_cond : list (simple V bool) }.

(** SimplePiece.hh 102-110: in_piece. The results stored by the conditions are not kept here: nothing reads them. *)
Fixpoint conds_at (cs : list (simple V bool)) (var : V) : outcome bool :=
  match cs with
  | [] => Ok true
  | c :: cs' => let* b := sp_eval c var in if b then conds_at cs' var else Ok false
  end.
Definition sq_in_piece (p : simple_piece) (var : V) : outcome bool := conds_at (sq_cond p) var.

(** SimplePiece.hh 127-130: eval. *)
Definition sq_eval (p : simple_piece) (var : V) : outcome A := sp_eval (sq_expr p) var.

(** A SimplePiece as a PSimpleBase object (Piece.hh 83, 88, 93; SimplePiece.hh 31). *)
Definition sq_simple (p : simple_piece) : simple V A := mkSimple (sp_name (sq_expr p)) (sq_eval p) None.

(** ** PPieceWiseSimpleBase.hh *)

(** 103-111: in_piece. *)
Fixpoint ps_in_piece (l : list simple_piece) (var : V) : outcome bool :=
  match l with
  | [] => Ok false
  | p :: l' => let* b := sq_in_piece p var in if b then Ok true else ps_in_piece l' var
  end.

(** 113-122: piece. *)
Fixpoint ps_piece_from (i : Z) (l : list simple_piece) (var : V) : outcome Z :=
  match l with
  | [] => Throw DomainError
  | p :: l' => let* b := sq_in_piece p var in if b then Ok i else ps_piece_from (i + 1) l' var
  end.
Definition ps_piece (l : list simple_piece) (var : V) : outcome Z := ps_piece_from 0 l var.

(** 125-134: eval. *)
Fixpoint ps_eval (l : list simple_piece) (var : V) : outcome A :=
  match l with
  | [] => Throw DomainError
  | p :: l' => let* b := sq_in_piece p var in if b then sq_eval p var else ps_eval l' var
  end.

(** 28-31: constructor; the object as a PSimpleBase. *)
Definition ps_simple (l : list simple_piece) : simple V A := mkSimple "" (ps_eval l) None.

(** ** Piece.hh *)
Context {T : Type} (K : fclass V A T).

(** Piece.hh 22-23, 32-39: _expr and _condition (names left out). Simplification: no empty wrapper. *)
Record piece : Type := mkPiece { pc_expr : T; pc_cond : list (simple V bool) }.

(** A call on the expression of a piece. *)
Definition on_expr {B : Type} (m : M T B) : M piece B :=
  fun p => match m (pc_expr p) with
           | RRet t b => RRet (mkPiece t (pc_cond p)) b
           | RThrow t e => RThrow (mkPiece t (pc_cond p)) e
           | RExit => RExit | RUB r => RUB r | RNoFuel => RNoFuel
           end.

(** Piece.hh 41-49: in_piece; the conditions are evaluated through operator()(var) and store their results. *)
Fixpoint conds_call (var : V) (cs : list (simple V bool)) : res (list (simple V bool)) bool :=
  match cs with
  | [] => RRet [] true
  | c :: cs' =>
      match sp_call var c with
      | RRet c' true => match conds_call var cs' with
                        | RRet r b => RRet (c' :: r) b
                        | RThrow r e => RThrow (c' :: r) e
                        | RExit => RExit | RUB r => RUB r | RNoFuel => RNoFuel
                        end
      | RRet c' false => RRet (c' :: cs') false
      | RThrow c' e => RThrow (c' :: cs') e
      | RExit => RExit | RUB r => RUB r | RNoFuel => RNoFuel
      end
  end.
Definition pc_in_piece (var : V) : M piece bool :=
  fun p => match conds_call var (pc_cond p) with
           | RRet cs b => RRet (mkPiece (pc_expr p) cs) b
           | RThrow cs e => RThrow (mkPiece (pc_expr p) cs) e
           | RExit => RExit | RUB r => RUB r | RNoFuel => RNoFuel
           end.

(** Piece.hh 51-59: expr() and condition(), which return copies. *)
Definition pc_get_expr (p : piece) : T := pc_expr p.
Definition pc_get_condition (p : piece) : list (simple V bool) := pc_cond p.

(** Piece.hh 61-74: simplepiece, grad_simplepiece, hess_simplepiece. *)
Definition pc_simplepiece (p : piece) : outcome simple_piece :=
  let* s := k_simple K (pc_expr p) in Ok (mkSP s (pc_cond p)).
Definition pc_grad_simplepiece (p : piece) (di : Z) : outcome simple_piece :=
  let* s := k_grad_simple K (pc_expr p) di in Ok (mkSP s (pc_cond p)).
Definition pc_hess_simplepiece (p : piece) (di dj : Z) : outcome simple_piece :=
  let* s := k_hess_simple K (pc_expr p) di dj in Ok (mkSP s (pc_cond p)).

(** Piece.hh 81-94: simplefunction, grad_simplefunction, hess_simplefunction; 102-113, 117-142: everything else is delegated to _expr
    without regard to the conditions. *)
Definition piece_class : fclass V A piece := {|
  k_call := fun v => on_expr (k_call K v);
  k_call_grad := fun v di => on_expr (k_call_grad K v di);
  k_call_hess := fun v di dj => on_expr (k_call_hess K v di dj);
  k_eval_grad := fun v => on_expr (k_eval_grad K v);
  k_eval_hess := fun v => on_expr (k_eval_hess K v);
  k_get := fun p => k_get K (pc_expr p);
  k_get_grad := fun p di => k_get_grad K (pc_expr p) di;
  k_get_hess := fun p di dj => k_get_hess K (pc_expr p) di dj;
  k_simple := fun p => let* q := pc_simplepiece p in Ok (sq_simple q);
  k_grad_simple := fun p di => let* q := pc_grad_simplepiece p di in Ok (sq_simple q);
  k_hess_simple := fun p di dj => let* q := pc_hess_simplepiece p di dj in Ok (sq_simple q)
|}.

(** ** PPieceWiseFuncBase.hh *)

(** 28-29: _curr_piece ([None] until first assigned) and _piece. *)
Record pw : Type := mkPw { pw_curr : option Z; pw_piece : list piece }.

(** The loop of in_piece and piece: the index of the first piece the argument is in. *)
Fixpoint find_piece (var : V) (i : Z) (l : list piece) : res (list piece) (option Z) :=
  match l with
  | [] => RRet [] None
  | p :: l' =>
      match pc_in_piece var p with
      | RRet p' true => RRet (p' :: l') (Some i)
      | RRet p' false => match find_piece var (i + 1) l' with
                         | RRet r k => RRet (p' :: r) k
                         | RThrow r e => RThrow (p' :: r) e
                         | RExit => RExit | RUB r => RUB r | RNoFuel => RNoFuel
                         end
      | RThrow p' e => RThrow (p' :: l') e
      | RExit => RExit | RUB r => RUB r | RNoFuel => RNoFuel
      end
  end.
Definition on_pieces {B : Type} (m : M (list piece) B) : M pw B :=
  fun o => match m (pw_piece o) with
           | RRet l b => RRet (mkPw (pw_curr o) l) b
           | RThrow l e => RThrow (mkPw (pw_curr o) l) e
           | RExit => RExit | RUB r => RUB r | RNoFuel => RNoFuel
           end.

(** 38-46: in_piece. *)
Definition pw_in_piece (var : V) : M pw bool :=
  do* k := on_pieces (find_piece var 0) in
  mret (match k with Some _ => true | None => false end).

(** 48-57: piece. *)
Definition pw_piece_of (var : V) : M pw Z :=
  do* k := on_pieces (find_piece var 0) in
  match k with
  | Some i => mmod (fun o => mkPw (Some i) (pw_piece o)) ;;; mret i
  | None => mlift (Throw DomainError)
  end.

(** _piece[piece(var)].f(...) (103-129). *)
Definition pw_on {B : Type} (var : V) (m : M piece B) : M pw B :=
  do* i := pw_piece_of var in on_pieces (on_elem i m).

(** _piece[_curr_piece].f(...) (132-143). *)
Definition pw_read {B : Type} (f : piece -> outcome B) (o : pw) : outcome B :=
  let* i := read_member (pw_curr o) in
  let* p := vget (pw_piece o) i in f p.

(** 64-98: the loops of simplefunction, grad_simplefunction and hess_simplefunction. *)
Fixpoint simple_pieces (f : piece -> outcome simple_piece) (l : list piece) : outcome (list simple_piece) :=
  match l with
  | [] => Ok []
  | p :: l' => let* q := f p in let* r := simple_pieces f l' in Ok (q :: r)
  end.

(** 64-143. *)
Definition pw_class : fclass V A pw := {|
  k_call := fun v => pw_on v (k_call piece_class v);
  k_call_grad := fun v di => pw_on v (k_call_grad piece_class v di);
  k_call_hess := fun v di dj => pw_on v (k_call_hess piece_class v di dj);
  k_eval_grad := fun v => pw_on v (k_eval_grad piece_class v);
  k_eval_hess := fun v => pw_on v (k_eval_hess piece_class v);
  k_get := pw_read (k_get piece_class);
  k_get_grad := fun o di => pw_read (fun p => k_get_grad piece_class p di) o;
  k_get_hess := fun o di dj => pw_read (fun p => k_get_hess piece_class p di dj) o;
  k_simple := fun o => let* l := simple_pieces pc_simplepiece (pw_piece o) in Ok (ps_simple l);
  k_grad_simple := fun o di => let* l := simple_pieces (fun p => pc_grad_simplepiece p di) (pw_piece o) in Ok (ps_simple l);
  k_hess_simple := fun o di dj => let* l := simple_pieces (fun p => pc_hess_simplepiece p di dj) (pw_piece o) in Ok (ps_simple l)
|}.
End Piecewise.
Arguments simple_piece V A : clear implicits.
Arguments piece V T : clear implicits.
Arguments pw V T : clear implicits.

(** ** Printed forms *)

(** The three printed forms of a PSimpleBase object (PSimpleBase.hh 43-59); a form that is not defined throws. *)
Record printed : Type := mkPrinted { pr_csrc : outcome string; pr_sym : outcome string; pr_latex : outcome string }.

(** The loop over i of the printing functions: [first], [last], [mid] give the text appended for the first, the last and the other entries. *)
Fixpoint print_from {X : Type} (first last mid : X -> outcome string) (n i : nat) (l : list X) (str : string) : outcome string :=
  match l with
  | [] => Ok str
  | x :: l' =>
      let* t := if Nat.eqb i 0 then first x else if Nat.eqb i (n - 1) then last x else mid x in
      print_from first last mid n (Datatypes.S i) l' (str ++ t)%string
  end.
Definition after (sep : string) (t : outcome string) : outcome string := let* s := t in Ok (sep ++ s)%string.

(** SimplePiece.hh 34-53: csrc. *)
Definition sq_csrc (expr : printed) (cs : list printed) : outcome string :=
  let* str := pr_csrc expr in
  print_from (fun c => after " if " (pr_csrc c)) (fun c => after " and " (pr_csrc c)) (fun c => after ", " (pr_csrc c)) (List.length cs) 0 cs str.

(** SimplePiece.hh 55-74: sym. *)
Definition sq_sym (expr : printed) (cs : list printed) : outcome string :=
  let* str := pr_sym expr in
  print_from (fun c => after " if " (pr_sym c)) (fun c => after " and " (pr_sym c)) (fun c => after ", " (pr_sym c)) (List.length cs) 0 cs str.

(** SimplePiece.hh 76-95: latex; line 91 calls sym. *)
Definition sq_latex (expr : printed) (cs : list printed) : outcome string :=
  let* str := pr_latex expr in
  print_from (fun c => after " & \mbox{ if } " (pr_latex c)) (fun c => after " \mbox{ and } " (pr_latex c)) (fun c => after " \mbox{, } " (pr_sym c))
    (List.length cs) 0 cs str.

(** A SimplePiece's printed forms. *)
Definition sq_printed (p : printed * list printed) : printed :=
  mkPrinted (sq_csrc (fst p) (snd p)) (sq_sym (fst p) (snd p)) (sq_latex (fst p) (snd p)).

(** PPieceWiseSimpleBase.hh 33-52: csrc. *)
Definition ps_csrc (l : list printed) : outcome string :=
  print_from pr_csrc (fun c => after "; and " (pr_csrc c)) (fun c => after "; " (pr_csrc c)) (List.length l) 0 l "".

(** PPieceWiseSimpleBase.hh 54-73: sym. *)
Definition ps_sym (l : list printed) : outcome string :=
  print_from pr_sym (fun c => after "; and " (pr_sym c)) (fun c => after "; " (pr_sym c)) (List.length l) 0 l "".

(** PPieceWiseSimpleBase.hh 75-96: latex. *)
Definition ps_latex (l : list printed) : outcome string :=
  let* str := print_from (fun c => after "\left\{ \begin{array}{ll} " (pr_latex c)) (fun c => after " \\ " (pr_latex c))
                (fun c => after " \\ " (pr_latex c)) (List.length l) 0 l "" in
  Ok (str ++ " \end{array} \right.")%string.
