(** Arithmetic expressions of C++ source text (infrastructure for Samples.v): the subset used by the sample library's generated functions, with
    C++'s precedence and association, and its meaning in any arithmetic. *)
From Coq Require Import ZArith List Bool Ascii String.
From Verif Require Import Model.Outcome Model.Num Model.Stream.
Import ListNotations.
Local Open Scope Z_scope.

(** [CNum m e] is the literal m * 10^e. [CVar k] is var\[k\], or var where the variable is a double. [CPow] is std::pow, and in the symbolic
    texts sqrt or ^ with an exponent in parentheses; [CHat] is ^ with a numeral. *)
Inductive cexpr : Type :=
| CNum (m e : Z)
| CVar (k : Z)
| CNeg (a : cexpr)
| CAdd (a b : cexpr)
| CSub (a b : cexpr)
| CMul (a b : cexpr)
| CDiv (a b : cexpr)
| CPow (a b : cexpr)
| CHat (a : cexpr) (n : nat).

(** Two notations: C++ source ([names] = var, [hat] = false) and symbolic text (variables by name, powers with ^). *)
Record notation : Type := mkNotation { nt_names : list (text * Z); nt_cpp : bool }.
Definition cpp : notation := mkNotation [] true.
Definition symbolic (vars : list text) : notation := mkNotation (combine vars (map Z.of_nat (seq 0 (List.length vars)))) false.

(** Text *)
Fixpoint skip_blanks (t : text) : text := match t with c :: t' => if space c then skip_blanks t' else t | [] => [] end.
Fixpoint strip_prefix (p t : text) : option text :=
  match p, t with
  | [], _ => Some t
  | x :: p', y :: t' => if Ascii.eqb x y then strip_prefix p' t' else None
  | _ :: _, [] => None
  end.
Definition is_digit (c : ascii) : bool := let n := nat_of_ascii c in (Nat.leb 48 n && Nat.leb n 57)%bool.
Definition digit_of (c : ascii) : Z := Z.of_nat (nat_of_ascii c) - 48.
Fixpoint digits (acc : Z) (n : nat) (t : text) : Z * nat * text :=
  match t with
  | c :: t' => if is_digit c then digits (10 * acc + digit_of c) (S n) t' else (acc, n, t)
  | [] => (acc, n, t)
  end.

(** m * 10^e with no trailing zeros in m. *)
Fixpoint strip_zeros (fuel : nat) (m e : Z) : Z * Z :=
  match fuel with
  | S k => if m =? 0 then (0, 0) else if m mod 10 =? 0 then strip_zeros k (m / 10) (e + 1) else (m, e)
  | O => (m, e)
  end.

(** A number: digits, optionally a point and digits, optionally e or E with an exponent. A C++ literal without point or exponent is an int and
    not accepted. *)
Definition exponent (t : text) : option (Z * text) :=
  match t with
  | c :: t1 =>
      if (Ascii.eqb c "e" || Ascii.eqb c "E")%bool then
        let (sgn, t2) := match t1 with
                         | "+"%char :: t2 => (1, t2)
                         | "-"%char :: t2 => (-1, t2)
                         | _ => (1, t1)
                         end in
        match digits 0 0 t2 with (v, S _, t3) => Some (sgn * v, t3) | _ => None end
      else Some (0, t)
  | [] => Some (0, t)
  end.
Definition number (int_ok : bool) (t : text) : option (cexpr * text) :=
  match digits 0 0 t with
  | (_, O, _) => None
  | (a, S _, t1) =>
      let '(m, frac, point, t2) :=
        match t1 with
        | "."%char :: t1' => let '(b, n, t2) := digits a 0 t1' in (b, Z.of_nat n, true, t2)
        | _ => (a, 0, false, t1)
        end in
      match exponent t2 with
      | Some (ex, t3) =>
          if (int_ok || point)%bool then let (m', e') := strip_zeros (List.length t) m (ex - frac) in Some (CNum m' e', t3) else None
      | None => None
      end
  end.

(** A variable. *)
Fixpoint named (l : list (text * Z)) (t : text) : option (cexpr * text) :=
  match l with
  | [] => None
  | (n, k) :: l' => match strip_prefix n t with Some t' => Some (CVar k, t') | None => named l' t end
  end.
Definition variable (nt : notation) (t : text) : option (cexpr * text) :=
  if nt_cpp nt then
    match strip_prefix (txt "var") t with
    | Some ("["%char :: t1) =>
        match digits 0 0 t1 with
        | (k, S _, "]"%char :: t2) => Some (CVar k, t2)
        | _ => None
        end
    | Some t1 => Some (CVar 0, t1)
    | None => None
    end
  else named (nt_names nt) t.

(** The grammar: sums of products of signed primaries, left to right. *)
Fixpoint p_sum (fuel : nat) (nt : notation) (t : text) : option (cexpr * text) :=
  match fuel with
  | O => None
  | S k => match p_prod k nt t with Some (a, t1) => p_sums k nt a t1 | None => None end
  end
with p_sums (fuel : nat) (nt : notation) (a : cexpr) (t : text) : option (cexpr * text) :=
  match fuel with
  | O => None
  | S k =>
      match skip_blanks t with
      | "+"%char :: t1 => match p_prod k nt t1 with Some (b, t2) => p_sums k nt (CAdd a b) t2 | None => None end
      | "-"%char :: t1 => match p_prod k nt t1 with Some (b, t2) => p_sums k nt (CSub a b) t2 | None => None end
      | t1 => Some (a, t1)
      end
  end
with p_prod (fuel : nat) (nt : notation) (t : text) : option (cexpr * text) :=
  match fuel with
  | O => None
  | S k => match p_unary k nt t with Some (a, t1) => p_prods k nt a t1 | None => None end
  end
with p_prods (fuel : nat) (nt : notation) (a : cexpr) (t : text) : option (cexpr * text) :=
  match fuel with
  | O => None
  | S k =>
      match skip_blanks t with
      | "*"%char :: t1 => match p_unary k nt t1 with Some (b, t2) => p_prods k nt (CMul a b) t2 | None => None end
      | "/"%char :: t1 => match p_unary k nt t1 with Some (b, t2) => p_prods k nt (CDiv a b) t2 | None => None end
      | t1 => Some (a, t1)
      end
  end
with p_unary (fuel : nat) (nt : notation) (t : text) : option (cexpr * text) :=
  match fuel with
  | O => None
  | S k =>
      match skip_blanks t with
      | "-"%char :: t1 => match p_unary k nt t1 with Some (a, t2) => Some (CNeg a, t2) | None => None end
      | t1 =>
          match p_primary k nt t1 with
          | Some (a, "^"%char :: t2) =>
              if nt_cpp nt then None
              else match t2 with
                   | "("%char :: t3 =>
                       match p_sum k nt t3 with
                       | Some (b, t4) => match skip_blanks t4 with ")"%char :: t5 => Some (CPow a b, t5) | _ => None end
                       | None => None
                       end
                   | _ => match digits 0 0 t2 with (n, S _, t3) => Some (CHat a (Z.to_nat n), t3) | _ => None end
                   end
          | r => r
          end
      end
  end
with p_primary (fuel : nat) (nt : notation) (t : text) : option (cexpr * text) :=
  match fuel with
  | O => None
  | S k =>
      match t with
      | "("%char :: t1 =>
          match p_sum k nt t1 with
          | Some (a, t2) => match skip_blanks t2 with ")"%char :: t3 => Some (a, t3) | _ => None end
          | None => None
          end
      | _ =>
          match strip_prefix (txt "pow(") t with
          | Some t1 =>
              match p_sum k nt t1 with
              | Some (a, t2) =>
                  match skip_blanks t2 with
                  | ","%char :: t3 =>
                      match p_sum k nt t3 with
                      | Some (b, t4) => match skip_blanks t4 with ")"%char :: t5 => Some (CPow a b, t5) | _ => None end
                      | None => None
                      end
                  | _ => None
                  end
              | None => None
              end
          | None =>
              match (if nt_cpp nt then None else strip_prefix (txt "sqrt(") t) with
              | Some t1 =>
                  match p_sum k nt t1 with
                  | Some (a, t2) => match skip_blanks t2 with ")"%char :: t3 => Some (CPow a (CDiv (CNum 1 0) (CNum 2 0)), t3) | _ => None end
                  | None => None
                  end
              | None =>
                  match number (negb (nt_cpp nt)) t with
                  | Some r => Some r
                  | None => variable nt t
                  end
              end
          end
      end
  end.

(** A whole text. *)
Definition parse (nt : notation) (t : text) : option cexpr :=
  match p_sum (6 * List.length t + 6) nt t with
  | Some (e, t1) => match skip_blanks t1 with [] => Some e | _ => None end
  | None => None
  end.

(** The value of a literal m * 10^e: correctly rounded where |m| and 10^|e| are exact doubles, as in all the sample functions. *)
Definition literal (O : NumOps) (m e : Z) : num O :=
  if 0 <=? e then nofZ O (m * 10 ^ e) else ndiv O (nofZ O m) (nofZ O (10 ^ (- e))).

Fixpoint hat (O : NumOps) (x : num O) (n : nat) : num O :=
  match n with 0%nat => nofZ O 1 | S k => nmul O x (hat O x k) end.

(** The value of an expression; [pw] is std::pow. *)
Fixpoint ceval (O : NumOps) (pw : num O -> num O -> num O) (v : list (num O)) (e : cexpr) : outcome (num O) :=
  match e with
  | CNum m x => Ok (literal O m x)
  | CVar k => vget v k
  | CNeg a => let* x := ceval O pw v a in Ok (nopp O x)
  | CAdd a b => let* x := ceval O pw v a in let* y := ceval O pw v b in Ok (nadd O x y)
  | CSub a b => let* x := ceval O pw v a in let* y := ceval O pw v b in Ok (nsub O x y)
  | CMul a b => let* x := ceval O pw v a in let* y := ceval O pw v b in Ok (nmul O x y)
  | CDiv a b => let* x := ceval O pw v a in let* y := ceval O pw v b in Ok (ndiv O x y)
  | CPow a b => let* x := ceval O pw v a in let* y := ceval O pw v b in Ok (pw x y)
  | CHat a n => let* x := ceval O pw v a in Ok (hat O x n)
  end.

(** A comparison of two expressions. *)
Inductive ccond : Type := CLt (a b : cexpr) | CGe (a b : cexpr).
Definition parse_cond (nt : notation) (t : text) : option ccond :=
  match p_sum (6 * List.length t + 6) nt t with
  | Some (a, t1) =>
      match skip_blanks t1 with
      | "<"%char :: "="%char :: _ => None
      | "<"%char :: t2 => option_map (CLt a) (parse nt t2)
      | ">"%char :: "="%char :: t2 => option_map (CGe a) (parse nt t2)
      | _ => None
      end
  | None => None
  end.
Definition ccond_eval (O : NumOps) (pw : num O -> num O -> num O) (v : list (num O)) (c : ccond) : outcome bool :=
  match c with
  | CLt a b => let* x := ceval O pw v a in let* y := ceval O pw v b in Ok (nltb O x y)
  | CGe a b => let* x := ceval O pw v a in let* y := ceval O pw v b in Ok (nleb O y x)
  end.
