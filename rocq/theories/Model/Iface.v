(** Virtual calls through PFunction.hh on objects of classes derived from PFuncBase.hh. *)
From Coq Require Import ZArith List Bool String.
From Verif Require Import Model.Outcome Model.BasisSet Model.Series.
Import ListNotations.
Local Open Scope Z_scope.

(** Parameter types occurring in the member functions: const VarContainer&, int, size_type. *)
Inductive cty : Type := TVar | TInt | TSize.
Definition cty_eqb (a b : cty) : bool :=
  match a, b with TVar, TVar | TInt, TInt | TSize, TSize => true | _, _ => false end.
Fixpoint params_eqb (l l' : list cty) : bool :=
  match l, l' with
  | [], [] => true
  | a :: l, b :: l' => cty_eqb a b && params_eqb l l'
  | _, _ => false
  end.

(** A member function's name, parameter types and constness: the data that decide whether one function overrides another. *)
Record msig : Type := mkSig { ms_name : string; ms_params : list cty; ms_const : bool }.
Definition sig_eqb (a b : msig) : bool :=
  String.eqb (ms_name a) (ms_name b) && params_eqb (ms_params a) (ms_params b) && Bool.eqb (ms_const a) (ms_const b).

(** Arguments of a call. *)
Inductive carg (V : Type) : Type := CVar (x : V) | CNum (i : Z).
Arguments CVar {V}.
Arguments CNum {V}.

Section Dispatch.
Context {T V A : Type}.

(** A member function of a class with objects [T]; void functions return [None]. *)
Definition method : Type := list (carg V) -> M T (option A).
Definition cls : Type := list (msig * method).

Fixpoint find_method (c : cls) (g : msig) : option method :=
  match c with
  | [] => None
  | (h, m) :: c' => if sig_eqb g h then Some m else find_method c' g
  end.

(** The final overrider of the base class's function [g] in a class derived from it, and its call. A base class without
    such a function does not compile; not met here ([UBNoReturn]). *)
Definition virtual_call (derived base : cls) (g : msig) (args : list (carg V)) : M T (option A) :=
  match find_method derived g with
  | Some m => m args
  | None => match find_method base g with
            | Some m => m args
            | None => mlift (UB UBNoReturn)
            end
  end.

(** PFuncBase.hh 142-146: undefined. *)
Definition fb_undefined : method := fun _ => mlift (Throw RuntimeError).

(** PFuncBase.hh 94-108 (single evaluations), 112-123 (eval family), 125-139 (getters): signatures. *)
Definition sig_call : msig := mkSig "operator()" [TVar] false.
Definition sig_call_grad : msig := mkSig "grad" [TVar; TSize] false.
Definition sig_call_hess : msig := mkSig "hess" [TVar; TSize; TSize] false.
Definition sig_eval : msig := mkSig "eval" [TVar] false.
Definition sig_eval_grad : msig := mkSig "eval_grad" [TVar] false.
Definition sig_eval_hess : msig := mkSig "eval_hess" [TVar] false.
Definition sig_get : msig := mkSig "operator()" [] true.
Definition sig_get_grad : msig := mkSig "grad" [TSize] true.
Definition sig_get_hess : msig := mkSig "hess" [TSize; TSize] true.

(** PFuncBase.hh 94-139: every one of them is undefined in the base class. *)
Definition PFuncBase_class : cls :=
  map (fun g => (g, fb_undefined))
    [sig_call; sig_call_grad; sig_call_hess; sig_eval; sig_eval_grad; sig_eval_hess; sig_get; sig_get_grad; sig_get_hess].

(** The value of a function that is not void. A function that returns nothing where a value is expected is not met here. *)
Definition value_of (m : M T (option A)) : M T A :=
  do* r := m in
  match r with Some a => mret a | None => mlift (UB UBNoReturn) end.
Definition no_value (m : M T (option A)) : M T unit := m ;;; mret tt.

(** PFunction.hh 93-104: operator()(var), grad(var, di), hess(var, di, dj); the ints become size_types. *)
Definition pf_call (c : cls) (x : V) : M T A := value_of (virtual_call c PFuncBase_class sig_call [CVar x]).
Definition pf_call_grad (c : cls) (x : V) (di : Z) : M T A :=
  value_of (virtual_call c PFuncBase_class sig_call_grad [CVar x; CNum (int_to_size di)]).
Definition pf_call_hess (c : cls) (x : V) (di dj : Z) : M T A :=
  value_of (virtual_call c PFuncBase_class sig_call_hess [CVar x; CNum (int_to_size di); CNum (int_to_size dj)]).

(** PFunction.hh 108-119: eval, eval_grad, eval_hess. *)
Definition pf_eval (c : cls) (x : V) : M T unit := no_value (virtual_call c PFuncBase_class sig_eval [CVar x]).
Definition pf_eval_grad (c : cls) (x : V) : M T unit := no_value (virtual_call c PFuncBase_class sig_eval_grad [CVar x]).
Definition pf_eval_hess (c : cls) (x : V) : M T unit := no_value (virtual_call c PFuncBase_class sig_eval_hess [CVar x]).

(** PFunction.hh 121-132: the getters. *)
Definition pf_get (c : cls) : M T A := value_of (virtual_call c PFuncBase_class sig_get []).
Definition pf_get_grad (c : cls) (di : Z) : M T A :=
  value_of (virtual_call c PFuncBase_class sig_get_grad [CNum (int_to_size di)]).
Definition pf_get_hess (c : cls) (di dj : Z) : M T A :=
  value_of (virtual_call c PFuncBase_class sig_get_hess [CNum (int_to_size di); CNum (int_to_size dj)]).

End Dispatch.
Arguments method : clear implicits.
Arguments cls : clear implicits.

(** Member functions from functions of their arguments; other argument lists do not occur. *)
Definition m_var {T V A : Type} (f : V -> M T A) : method T V A :=
  fun l => match l with [CVar x] => do* a := f x in mret (Some a) | _ => mlift (UB UBNoReturn) end.
Definition m_var_int {T V A : Type} (f : V -> Z -> M T A) : method T V A :=
  fun l => match l with [CVar x; CNum i] => do* a := f x i in mret (Some a) | _ => mlift (UB UBNoReturn) end.
Definition m_var_int2 {T V A : Type} (f : V -> Z -> Z -> M T A) : method T V A :=
  fun l => match l with [CVar x; CNum i; CNum j] => do* a := f x i j in mret (Some a) | _ => mlift (UB UBNoReturn) end.
Definition m_void {T V A : Type} (f : V -> M T unit) : method T V A :=
  fun l => match l with [CVar x] => f x ;;; mret None | _ => mlift (UB UBNoReturn) end.
Definition m_get {T V A : Type} (f : T -> outcome A) : method T V A :=
  fun l => match l with [] => do* s := mget in do* a := mlift (f s) in mret (Some a) | _ => mlift (UB UBNoReturn) end.
Definition m_get_int {T V A : Type} (f : T -> Z -> outcome A) : method T V A :=
  fun l => match l with [CNum i] => do* s := mget in do* a := mlift (f s i) in mret (Some a) | _ => mlift (UB UBNoReturn) end.
Definition m_get_int2 {T V A : Type} (f : T -> Z -> Z -> outcome A) : method T V A :=
  fun l => match l with
           | [CNum i; CNum j] => do* s := mget in do* a := mlift (f s i j) in mret (Some a)
           | _ => mlift (UB UBNoReturn)
           end.

(** PSeriesFunction.hh 124 (operator()(var)), 133 (grad(var, int)), 152 (hess(var, int, int)), 180-205 (eval, eval_grad,
    eval_hess), 207 (operator()() const), 211 (grad(int) const), 215 (hess(int, int) const), with the parameter types written
    there. *)
Definition PSeriesFunction_class (S : SerOps) : cls (series S) (list (sx S)) (sa S) :=
  [ (mkSig "operator()" [TVar] false, m_var se_call);
    (mkSig "grad" [TVar; TInt] false, m_var_int se_call_grad);
    (mkSig "hess" [TVar; TInt; TInt] false, m_var_int2 se_call_hess);
    (mkSig "eval" [TVar] false, m_void se_eval);
    (mkSig "eval_grad" [TVar] false, m_void se_eval_grad);
    (mkSig "eval_hess" [TVar] false, m_void se_eval_hess);
    (mkSig "operator()" [] true, m_get se_get);
    (mkSig "grad" [TInt] true, m_get_int se_get_grad);
    (mkSig "hess" [TInt; TInt] true, m_get_int2 se_get_hess) ]%string.
