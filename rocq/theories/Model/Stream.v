(** Model of the parts of the C++ standard library's input streams used by pfield/Mesh.hh (159-364), pfield/Body.hh
    (41-123) and pfunction/PSeriesFunction.hh (456-470): std::getline and operator>> in the "C" locale (C++11 rules, with
    libstdc++'s decimal integer scanner). *)
From Coq Require Import ZArith List Bool Ascii String.
From Verif Require Import Model.Outcome.
Import ListNotations.
Local Open Scope Z_scope.

(** Characters of a file or of a string (infrastructure). *)
Definition text : Type := list ascii.
Definition txt (s : string) : text := list_ascii_of_string s.

(** std::isspace in the "C" locale, used by operator>> (Mesh.hh 204, 209; Body.hh 79, 89). *)
Definition space (c : ascii) : bool :=
  match nat_of_ascii c with
  | 9%nat | 10%nat | 11%nat | 12%nat | 13%nat | 32%nat => true
  | _ => false
  end.

(** The newline character, the delimiter of std::getline (Mesh.hh 175, Body.hh 60). *)
Definition nl : ascii := ascii_of_nat 10.

(** An input stream: the characters not yet extracted and the state flags eofbit and failbit (badbit never occurs here). *)
Record istr : Type := mkIstr { is_rest : text; is_eof : bool; is_fail : bool }.

(** ios::good: neither flag is set; tested by every sentry. *)
Definition is_good (s : istr) : bool := negb (is_eof s) && negb (is_fail s).

(** std::ifstream(name) (Body.hh 47); [None] is a file that cannot be opened. std::istringstream after clear() and
    str(line) (Mesh.hh 189-190) is [is_open (Some line)]. *)
Definition is_open (f : option text) : istr :=
  match f with
  | Some t => mkIstr t false false
  | None => mkIstr [] false true
  end.

(** Characters up to the newline, if there is one, and what follows it (std::getline's inner loop). *)
Fixpoint cut_line (t : text) : text * option text :=
  match t with
  | [] => ([], None)
  | c :: t' => if Ascii.eqb c nl then ([], Some t') else let (l, r) := cut_line t' in (c :: l, r)
  end.

(** std::getline(stream, line) (Mesh.hh 175; Body.hh 60, 82): on a stream that is not good it sets failbit and leaves [line];
    otherwise it replaces [line], setting eofbit if the end is reached and failbit if nothing at all was extracted. *)
Definition getline (line : text) (s : istr) : text * istr :=
  if is_good s then
    match cut_line (is_rest s) with
    | (l, Some r) => (l, mkIstr r false false)
    | (l, None) => (l, mkIstr [] true (match l with [] => true | _ => false end))
    end
  else (line, mkIstr (is_rest s) (is_eof s) true).

(** The whitespace skipped by the sentry of operator>>. *)
Fixpoint skip_space (t : text) : text :=
  match t with
  | [] => []
  | c :: t' => if space c then skip_space t' else t
  end.

(** A scanner of one kind of value: the value stored, whether the conversion succeeded, and the characters left. It is
    called on a text that does not start with whitespace. *)
Definition scanner (A : Type) : Type := text -> A * bool * text.

(** stream >> variable: a stream that is not good, or has only whitespace left, fails and leaves the variable (which may
    be indeterminate); otherwise the scanner's value is stored. *)
Definition extract {A : Type} (sc : scanner A) (old : option A) (s : istr) : option A * istr :=
  if is_good s then
    match skip_space (is_rest s) with
    | [] => (old, mkIstr [] true true)
    | t => match sc t with
           | (v, ok, r) => (Some v, mkIstr r (match r with [] => true | _ => false end) (negb ok))
           end
    end
  else (old, mkIstr (is_rest s) (is_eof s) true).

(** operator>>(stream, std::string) (Mesh.hh 191, Body.hh 79): characters up to whitespace or the end. *)
Fixpoint scan_word (t : text) : text * text :=
  match t with
  | [] => ([], [])
  | c :: t' => if space c then ([], t) else let (w, r) := scan_word t' in (c :: w, r)
  end.
Definition word_scanner : scanner text := fun t => let (w, r) := scan_word t in (w, match w with [] => false | _ => true end, r).

(** Value of a decimal digit. *)
Definition digit (c : ascii) : option Z :=
  let n := Z.of_nat (nat_of_ascii c) in
  if (48 <=? n) && (n <=? 57) then Some (n - 48) else None.

(** The digits at the front of a text: accumulated value, whether there was one, and the rest. *)
Fixpoint scan_digits (acc : Z) (any : bool) (t : text) : Z * bool * text :=
  match t with
  | [] => (acc, any, [])
  | c :: t' => match digit c with
               | Some d => scan_digits (acc * 10 + d) true t'
               | None => (acc, any, t)
               end
  end.

(** An optional sign, then digits. *)
Definition scan_signed (t : text) : bool * (Z * bool * text) :=
  match t with
  | c :: t' => if Ascii.eqb c "-" then (true, scan_digits 0 false t')
               else if Ascii.eqb c "+" then (false, scan_digits 0 false t')
               else (false, scan_digits 0 false t)
  | [] => (false, scan_digits 0 false [])
  end.

(** operator>>(stream, unsigned long) (Mesh.hh 191, 282, 304, 309, 349; Body.hh 69): 64 bits; a minus sign negates modulo 2^64, a value out of
    range is replaced by the largest one and fails, no digits at all store 0 and fail. *)
Definition ULONG_MAX : Z := 18446744073709551615.
Definition ulong_scanner : scanner Z :=
  fun t => match scan_signed t with
           | (neg, (v, any, r)) =>
               if negb any then (0, false, r)
               else if ULONG_MAX <? v then (ULONG_MAX, false, r)
               else (if neg then (- v) mod (ULONG_MAX + 1) else v, true, r)
           end.

(** operator>>(stream, int) (PSeriesFunction.hh 466): a value out of range is replaced by the nearest one and fails. *)
Definition int_scanner : scanner Z :=
  fun t => match scan_signed t with
           | (neg, (v, any, r)) =>
               let z := if neg then - v else v in
               if negb any then (0, false, r)
               else if z <? INT_MIN then (INT_MIN, false, r)
               else if INT_MAX <? z then (INT_MAX, false, r)
               else (z, true, r)
           end.

(** line.size() > k-1 && line.substr(0,k) == word (Mesh.hh 185, 276, 338; Body.hh 64, 75): [word] is a prefix of [line]. *)
Fixpoint prefix_of (w line : text) : bool :=
  match w, line with
  | [], _ => true
  | a :: w', c :: line' => Ascii.eqb a c && prefix_of w' line'
  | _ :: _, [] => false
  end.
