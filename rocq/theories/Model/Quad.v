(** Model of include/IntegrationTools/pfield/interpolation/Quad.hh. *)
From Coq Require Import ZArith List Bool String.
From Verif Require Import Model.Outcome Model.Num Model.PSimple Model.FuncObj Model.Interpolator.
Import ListNotations.
Local Open Scope Z_scope.

Section Quad.
Context (O : NumOps).
Local Notation "x +. y" := (nadd O x y) (at level 50, left associativity).
Local Notation "x -. y" := (nsub O x y) (at level 50, left associativity).
Local Notation "x *. y" := (nmul O x y) (at level 40, left associativity).
Local Notation "x /. y" := (ndiv O x y) (at level 40, left associativity).
Local Notation one := (nofZ O 1).

(** Coordinate.hh 11-33 with DIM = 2. *)
Definition c2 : Type := (num O * num O)%type.

(** Quad.hh 305-309: the four entries r, n, h, s of the argument vector. *)
Record var2 : Type := mkVar2 { v2_r : c2; v2_n : c2; v2_h : c2; v2_s : c2 }.

(** Quad.hh 15-26: Quad_f::eval. *)
Definition quad_f (v : var2) : num O :=
  (one -. fst (v2_s v) *. (fst (v2_r v) -. fst (v2_n v)) /. fst (v2_h v)) *.
  (one -. snd (v2_s v) *. (snd (v2_r v) -. snd (v2_n v)) /. snd (v2_h v)).

(** Quad.hh 43-46: Quad_grad_0::eval. *)
Definition quad_grad_0 (v : var2) : num O :=
  nopp O (fst (v2_s v)) *. (one -. snd (v2_s v) *. (snd (v2_r v) -. snd (v2_n v)) /. snd (v2_h v)) /. fst (v2_h v).

(** Quad.hh 63-67: Quad_grad_1::eval. *)
Definition quad_grad_1 (v : var2) : num O :=
  nopp O (snd (v2_s v)) *. (one -. fst (v2_s v) *. (fst (v2_r v) -. fst (v2_n v)) /. fst (v2_h v)) /. snd (v2_h v).

(** Quad.hh 84-87: Quad_hess_0_0::eval. *)
Definition quad_hess_0_0 (v : var2) : num O := nofZ O 0.
(** Quad.hh 104-107: Quad_hess_0_1::eval. *)
Definition quad_hess_0_1 (v : var2) : num O := fst (v2_s v) *. snd (v2_s v) /. fst (v2_h v) /. snd (v2_h v).
(** Quad.hh 124-127: Quad_hess_1_0::eval. *)
Definition quad_hess_1_0 (v : var2) : num O := fst (v2_s v) *. snd (v2_s v) /. fst (v2_h v) /. snd (v2_h v).
(** Quad.hh 144-147: Quad_hess_1_1::eval. *)
Definition quad_hess_1_1 (v : var2) : num O := nofZ O 0.

(** One of the PSimpleBase objects above, newly built: _val is indeterminate. *)
Definition new_simple {V : Type} (n : string) (f : V -> num O) : simple V (num O) :=
  mkSimple n (fun v => Ok (f v)) None.

(** Quad.hh 270-297: construct (173-181: both constructors). Names of variables are left out. *)
Definition quad_new : fobj var2 (num O) :=
  mkFobj (new_simple "Quad_f" quad_f)
         [new_simple "Quad_grad_0" quad_grad_0; new_simple "Quad_grad_1" quad_grad_1]
         [[new_simple "Quad_hess_0_0" quad_hess_0_0; new_simple "Quad_hess_0_1" quad_hess_0_1];
          [new_simple "Quad_hess_1_0" quad_hess_1_0; new_simple "Quad_hess_1_1" quad_hess_1_1]].

(** Quad.hh 240-244: eval_grad. *)
Definition quad_eval_grad (v : var2) : M (fobj var2 (num O)) unit := fo_eval_grads [0; 1] v.

(** Quad.hh 246-252: eval_hess. *)
Definition quad_eval_hess (v : var2) : M (fobj var2 (num O)) unit :=
  fo_eval_hesses [(0, 0); (0, 1); (1, 0); (1, 1)] v.

(** Quad.hh 323-371 (338-370): the signs of corner [k]; any other k leaves the value-initialised zeros. *)
Definition quad_sign (k : Z) : c2 :=
  if k =? 0 then (one, one)
  else if k =? 1 then (nopp O one, one)
  else if k =? 2 then (nopp O one, nopp O one)
  else if k =? 3 then (one, nopp O one)
  else (nofZ O 0, nofZ O 0).

(** Quad.hh 373-383: min. *)
Definition quad_min (n h s : c2) : c2 :=
  ((if neqb O (fst s) (nopp O one) then fst n -. fst h else fst n),
   (if neqb O (snd s) (nopp O one) then snd n -. snd h else snd n)).

(** Quad.hh 385-395: max. *)
Definition quad_max (n h s : c2) : c2 :=
  ((if neqb O (fst s) one then fst n +. fst h else fst n),
   (if neqb O (snd s) one then snd n +. snd h else snd n)).

(** Quad.hh 405-407: the test of one component; [e < 0.0 || e >= 1.0] rejects. *)
Definition range1 (s r n h : num O) : bool :=
  let e := s *. (r -. n) /. h in
  negb (nltb O e (nofZ O 0) || nleb O one e).

(** Quad.hh 397-424: is_in_range. *)
Definition quad_in_range (n h s r : c2) : bool :=
  range1 (fst s) (fst r) (fst n) (fst h) && range1 (snd s) (snd r) (snd n) (snd h).

(** Quad.hh 429-448: operator(), grad, hess of QuadValues, through the basis function object (220-233; another
    index would read outside _grad_val or _hess_val). *)
Definition quad_value (n h s r : c2) : num O := quad_f (mkVar2 r n h s).
Definition quad_dvalue (n h s r : c2) (di : Z) : outcome (num O) :=
  let* f := vget [quad_grad_0; quad_grad_1] di in Ok (f (mkVar2 r n h s)).
Definition quad_ddvalue (n h s r : c2) (di dj : Z) : outcome (num O) :=
  let* row := vget [[quad_hess_0_0; quad_hess_0_1]; [quad_hess_1_0; quad_hess_1_1]] di in
  let* f := vget row dj in Ok (f (mkVar2 r n h s)).

(** Quad.hh 323-371: constructor of QuadValues. *)
Definition quad_values (node elem : Z) (n h : c2) (k : Z) : interp O c2 :=
  let s := quad_sign k in
  mkInterp node elem (quad_min n h s) (quad_max n h s) (quad_in_range n h s)
           (quad_value n h s) (quad_dvalue n h s) (quad_ddvalue n h s).

End Quad.

Arguments mkVar2 {O}.
Arguments v2_r {O}.
Arguments v2_n {O}.
Arguments v2_h {O}.
Arguments v2_s {O}.
