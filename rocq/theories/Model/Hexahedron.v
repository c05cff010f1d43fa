(** Model of include/IntegrationTools/pfield/interpolation/Hexahedron.hh. *)
From Coq Require Import ZArith List Bool String.
From Verif Require Import Model.Outcome Model.Num Model.PSimple Model.FuncObj Model.Interpolator Model.Quad.
Import ListNotations.
Local Open Scope Z_scope.

(** Coordinate.hh 11-33 with DIM = 3. *)
Record c3 (O : NumOps) : Type := mkC3 { cx : num O; cy : num O; cz : num O }.
Arguments mkC3 {O}.
Arguments cx {O}.
Arguments cy {O}.
Arguments cz {O}.

(** Hexahedron.hh 442-446: the four entries r, n, h, s of the argument vector. *)
Record var3 (O : NumOps) : Type := mkVar3 { v3_r : c3 O; v3_n : c3 O; v3_h : c3 O; v3_s : c3 O }.
Arguments mkVar3 {O}.
Arguments v3_r {O}.
Arguments v3_n {O}.
Arguments v3_h {O}.
Arguments v3_s {O}.

Section Hexahedron.
Context (O : NumOps).
Local Notation "x +. y" := (nadd O x y) (at level 50, left associativity).
Local Notation "x -. y" := (nsub O x y) (at level 50, left associativity).
Local Notation "x *. y" := (nmul O x y) (at level 40, left associativity).
Local Notation "x /. y" := (ndiv O x y) (at level 40, left associativity).
Local Notation one := (nofZ O 1).

(** The factor [1.0 - s*(r - n)/h] of one component (Hexahedron.hh 25-27). *)
Definition hexf (s r n h : num O) : num O := one -. s *. (r -. n) /. h.

(** Hexahedron.hh 15-28: Hexahedron_f::eval. *)
Definition hex_f (v : var3 O) : num O :=
  hexf (cx (v3_s v)) (cx (v3_r v)) (cx (v3_n v)) (cx (v3_h v)) *.
  hexf (cy (v3_s v)) (cy (v3_r v)) (cy (v3_n v)) (cy (v3_h v)) *.
  hexf (cz (v3_s v)) (cz (v3_r v)) (cz (v3_n v)) (cz (v3_h v)).

(** Hexahedron.hh 45-49: Hexahedron_grad_0::eval. *)
Definition hex_grad_0 (v : var3 O) : num O :=
  nopp O (cx (v3_s v)) *. hexf (cy (v3_s v)) (cy (v3_r v)) (cy (v3_n v)) (cy (v3_h v)) *.
  hexf (cz (v3_s v)) (cz (v3_r v)) (cz (v3_n v)) (cz (v3_h v)) /. cx (v3_h v).
(** Hexahedron.hh 66-71: Hexahedron_grad_1::eval. *)
Definition hex_grad_1 (v : var3 O) : num O :=
  nopp O (cy (v3_s v)) *. hexf (cx (v3_s v)) (cx (v3_r v)) (cx (v3_n v)) (cx (v3_h v)) *.
  hexf (cz (v3_s v)) (cz (v3_r v)) (cz (v3_n v)) (cz (v3_h v)) /. cy (v3_h v).
(** Hexahedron.hh 88-93: Hexahedron_grad_2::eval. *)
Definition hex_grad_2 (v : var3 O) : num O :=
  nopp O (cz (v3_s v)) *. hexf (cx (v3_s v)) (cx (v3_r v)) (cx (v3_n v)) (cx (v3_h v)) *.
  hexf (cy (v3_s v)) (cy (v3_r v)) (cy (v3_n v)) (cy (v3_h v)) /. cz (v3_h v).

(** Hexahedron.hh 110-113, 190-193, 270-273: Hexahedron_hess_0_0, _1_1 and _2_2. *)
Definition hex_hess_0_0 (v : var3 O) : num O := nofZ O 0.
Definition hex_hess_1_1 (v : var3 O) : num O := nofZ O 0.
Definition hex_hess_2_2 (v : var3 O) : num O := nofZ O 0.
(** Hexahedron.hh 130-133: Hexahedron_hess_0_1::eval. *)
Definition hex_hess_0_1 (v : var3 O) : num O := cx (v3_s v) *. cy (v3_s v) /. cx (v3_h v) /. cy (v3_h v).
(** Hexahedron.hh 150-153: Hexahedron_hess_0_2::eval. *)
Definition hex_hess_0_2 (v : var3 O) : num O := cx (v3_s v) *. cz (v3_s v) /. cx (v3_h v) /. cz (v3_h v).
(** Hexahedron.hh 170-173: Hexahedron_hess_1_0::eval. *)
Definition hex_hess_1_0 (v : var3 O) : num O := cy (v3_s v) *. cx (v3_s v) /. cy (v3_h v) /. cx (v3_h v).
(** Hexahedron.hh 210-213: Hexahedron_hess_1_2::eval. *)
Definition hex_hess_1_2 (v : var3 O) : num O := cy (v3_s v) *. cz (v3_s v) /. cy (v3_h v) /. cz (v3_h v).
(** Hexahedron.hh 230-233: Hexahedron_hess_2_0::eval. *)
Definition hex_hess_2_0 (v : var3 O) : num O := cz (v3_s v) *. cx (v3_s v) /. cz (v3_h v) /. cx (v3_h v).
(** Hexahedron.hh 250-253: Hexahedron_hess_2_1::eval. *)
Definition hex_hess_2_1 (v : var3 O) : num O := cz (v3_s v) *. cy (v3_s v) /. cz (v3_h v) /. cy (v3_h v).

(** The tables _grad_val and _hess_val as functions (Hexahedron.hh 417-432). *)
Definition hex_grads : list (var3 O -> num O) := [hex_grad_0; hex_grad_1; hex_grad_2].
Definition hex_hesses : list (list (var3 O -> num O)) :=
  [[hex_hess_0_0; hex_hess_0_1; hex_hess_0_2];
   [hex_hess_1_0; hex_hess_1_1; hex_hess_1_2];
   [hex_hess_2_0; hex_hess_2_1; hex_hess_2_2]].

(** Hexahedron.hh 400-434: construct (296-304: both constructors). Names of variables are left out, and the names of
    the nine Hessian objects. *)
Definition hex_new : fobj (var3 O) (num O) :=
  mkFobj (new_simple O "Hexahedron_f" hex_f)
         [new_simple O "Hexahedron_grad_0" hex_grad_0; new_simple O "Hexahedron_grad_1" hex_grad_1;
          new_simple O "Hexahedron_grad_2" hex_grad_2]
         (map (map (new_simple O "Hexahedron_hess")) hex_hesses).

(** Hexahedron.hh 370-374: eval_grad (only components 0 and 1). *)
Definition hex_eval_grad (v : var3 O) : M (fobj (var3 O) (num O)) unit := fo_eval_grads [0; 1] v.

(** Hexahedron.hh 376-382: eval_hess (only the components of the leading 2 x 2 block). *)
Definition hex_eval_hess (v : var3 O) : M (fobj (var3 O) (num O)) unit :=
  fo_eval_hesses [(0, 0); (0, 1); (1, 0); (1, 1)] v.

(** Hexahedron.hh 460-526 (478-525): the signs of corner [k]; any other k leaves the value-initialised zeros. *)
Definition hex_sign (k : Z) : c3 O :=
  let m := nopp O one in
  if k =? 0 then mkC3 one one one
  else if k =? 1 then mkC3 m one one
  else if k =? 2 then mkC3 m m one
  else if k =? 3 then mkC3 one m one
  else if k =? 4 then mkC3 one one m
  else if k =? 5 then mkC3 m one m
  else if k =? 6 then mkC3 m m m
  else if k =? 7 then mkC3 one m m
  else mkC3 (nofZ O 0) (nofZ O 0) (nofZ O 0).

(** Hexahedron.hh 528-540: min. *)
Definition hex_min (n h s : c3 O) : c3 O :=
  mkC3 (if neqb O (cx s) (nopp O one) then cx n -. cx h else cx n)
       (if neqb O (cy s) (nopp O one) then cy n -. cy h else cy n)
       (if neqb O (cz s) (nopp O one) then cz n -. cz h else cz n).

(** Hexahedron.hh 542-554: max. *)
Definition hex_max (n h s : c3 O) : c3 O :=
  mkC3 (if neqb O (cx s) one then cx n +. cx h else cx n)
       (if neqb O (cy s) one then cy n +. cy h else cy n)
       (if neqb O (cz s) one then cz n +. cz h else cz n).

(** Hexahedron.hh 556-584: is_in_range; the loop is over i < 2. *)
Definition hex_in_range (n h s r : c3 O) : bool :=
  range1 O (cx s) (cx r) (cx n) (cx h) && range1 O (cy s) (cy r) (cy n) (cy h).

(** Hexahedron.hh 589-611: operator(), grad, hess of HexahedronValues. *)
Definition hex_value (n h s r : c3 O) : num O := hex_f (mkVar3 r n h s).
Definition hex_dvalue (n h s r : c3 O) (di : Z) : outcome (num O) :=
  let* f := vget hex_grads di in Ok (f (mkVar3 r n h s)).
Definition hex_ddvalue (n h s r : c3 O) (di dj : Z) : outcome (num O) :=
  let* row := vget hex_hesses di in
  let* f := vget row dj in Ok (f (mkVar3 r n h s)).

(** Hexahedron.hh 460-526: constructor of HexahedronValues. *)
Definition hex_values (node elem : Z) (n h : c3 O) (k : Z) : interp O (c3 O) :=
  let s := hex_sign k in
  mkInterp node elem (hex_min n h s) (hex_max n h s) (hex_in_range n h s)
           (hex_value n h s) (hex_dvalue n h s) (hex_ddvalue n h s).

End Hexahedron.
