(** Reading several files, one after the other, into one body: what C48 is about. In rational arithmetic, for a given number notation and loop fuel. *)
From Coq Require Import ZArith QArith List Bool Ascii String.
From Verif Require Import Model.Outcome Model.Num Model.NumInst Model.PNDArray Model.Interpolator Model.Quad Model.Mesh Model.PField Model.Stream Model.Vtk.
From Verif Require Import Spec.Funcs Spec.Fields Spec.Vtk.
Import ListNotations.
Local Open Scope Z_scope.

(** A body made empty, then every file read into it. *)
Definition read_all (num_scanner : scanner Q) (fuel : nat) (ts : list text) : res (body (quad_vkind QOps)) unit :=
  fold_left (fun r t => match r with RRet b _ => body_read_vtk (quad_vkind QOps) num_scanner fuel (Some t) b | _ => r end)
    ts (RRet (body_new _) tt).

(** The value of the [k]-th field after reading the files, or how it fails. *)
Definition value_after (num_scanner : scanner Q) (fuel : nat) (ts : list text) (k : nat) (x y : Q) : outcome Q :=
  match read_all num_scanner fuel ts with
  | RRet b _ => match nth_error (bo_fields _ b) k with
                | Some p => match field_eval (K := quad_kind QOps) QVal (x, y) (bo_mesh _ b, p) with
                            | RRet _ a => Ok (Qred a) | RThrow _ e => Throw e | RExit => Exit | RUB u => UB u | RNoFuel => NoFuel
                            end
                | None => UB UBNull
                end
  | RThrow _ e => Throw e | RExit => Exit | RUB u => UB u | RNoFuel => NoFuel
  end.

