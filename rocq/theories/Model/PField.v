(** Model of include/IntegrationTools/pfield/PField.hh. *)
From Coq Require Import ZArith List Bool String.
From Verif Require Import Model.Outcome Model.Num Model.PNDArray Model.Bin Model.PSimple Model.Interpolator Model.Mesh.
Import ListNotations.
Local Open Scope Z_scope.

(** The operations on FieldType used by the class (PField.hh 119-123): [+=], [double * FieldType], and the
    value-initialised object stored by resize (61-64). *)
Record FieldOps (O : NumOps) : Type := mkField {
  ft : Type;
  ft_add : ft -> ft -> ft;
  ft_scale : num O -> ft -> ft;
  ft_dflt : ft
}.
Arguments ft {O}.
Arguments ft_add {O}.
Arguments ft_scale {O}.
Arguments ft_dflt {O}.

(** FieldType = double (Body.hh 24). *)
Definition scalar_field (O : NumOps) : FieldOps O := mkField O (num O) (nadd O) (nmul O) (nofZ O 0).

Section PField.
Context {O : NumOps} {K : kind O} {F : FieldOps O}.
Local Notation P := (kpoint K).

(** PField.hh 31-40 and 97-99: data members without _mesh (passed separately, since fields share it); _Nbfunc is written
    by each evaluation before it is read and left out. [pf_val] is indeterminate in a new object. *)
Record pfield : Type := mkPField {
  pf_name : string;
  pf_field : list (ft F);
  pf_zero : ft F;
  pf_val : option (ft F);
  pf_grad : list (ft F);
  pf_hess : list (list (ft F));
  pf_sc : scratch O
}.

(** PField.hh 46-65: constructor. *)
Definition pf_new (name : string) (m : mesh O K) (field : list (ft F)) (zero : ft F) : outcome pfield :=
  let* mx := mesh_max_bin_size m in
  Ok (mkPField name field zero None (repeat (ft_dflt F) (kdim K)) (repeat (repeat (ft_dflt F) (kdim K)) (kdim K))
               (mkScratch (repeat (nofZ O 0) (Z.to_nat mx)) (repeat 0 (Z.to_nat mx)))).

(** PField.hh 116-119, 137, 152: replace the scratch vectors, _val, _grad_val\[di\], _hess_val\[di\]\[dj\]. *)
Definition pf_set_sc (sc : scratch O) (p : pfield) : pfield :=
  mkPField (pf_name p) (pf_field p) (pf_zero p) (pf_val p) (pf_grad p) (pf_hess p) sc.
Definition pf_set_val (a : ft F) (p : pfield) : outcome pfield :=
  Ok (mkPField (pf_name p) (pf_field p) (pf_zero p) (Some a) (pf_grad p) (pf_hess p) (pf_sc p)).
Definition pf_set_grad (di : Z) (a : ft F) (p : pfield) : outcome pfield :=
  let* g := vset (pf_grad p) di a in
  Ok (mkPField (pf_name p) (pf_field p) (pf_zero p) (pf_val p) g (pf_hess p) (pf_sc p)).
Definition pf_set_hess (di dj : Z) (a : ft F) (p : pfield) : outcome pfield :=
  let* row := vget (pf_hess p) di in
  let* row' := vset row dj a in
  let* h := vset (pf_hess p) di row' in
  Ok (mkPField (pf_name p) (pf_field p) (pf_zero p) (pf_val p) (pf_grad p) h (pf_sc p)).

(** PField.hh 119-124, 137-139, 152-154: the sum. It is accumulated in the member itself; nothing can happen in
    between except undefined behaviour, so the model stores the total. *)
Definition pf_sum (s : Z) (p : pfield) : outcome (ft F) :=
  ofold (fun acc i =>
           let* b := vget (sc_bf (pf_sc p)) i in
           let* n := vget (sc_ni (pf_sc p)) i in
           let* v := vget (pf_field p) n in
           Ok (ft_add F acc (ft_scale F b v)))
        (map Z.of_nat (seq 0 (Z.to_nat s))) (pf_zero p).

(** PField.hh 104-156: common body of operator(), grad and hess: [f] is the quantity evaluated, [put] the member written. *)
Definition pf_eval_with (f : interp O P -> outcome (num O)) (put : ft F -> pfield -> outcome pfield) (c : P)
  : M (mesh O K * pfield) (ft F) :=
  fun mp =>
    match mesh_basis f c (fst mp, pf_sc (snd mp)) with
    | RRet (m, sc) s =>
        let p := pf_set_sc sc (snd mp) in
        match (let* a := pf_sum s p in let* p' := put a p in Ok (p', a)) with
        | Ok (p', a) => RRet (m, p') a
        | Throw e => RThrow (m, p) e
        | Exit => RExit
        | UB r => RUB r
        | NoFuel => RNoFuel
        end
    | RThrow (m, sc) e => RThrow (m, pf_set_sc sc (snd mp)) e
    | RExit => RExit
    | RUB r => RUB r
    | RNoFuel => RNoFuel
    end.

(** PField.hh 104-127: operator()(coord). *)
Definition pf_call (c : P) : M (mesh O K * pfield) (ft F) :=
  pf_eval_with (fun it => Ok (it_val it c)) pf_set_val c.

(** PField.hh 129-143: grad(coord, di). *)
Definition pf_call_grad (c : P) (di : Z) : M (mesh O K * pfield) (ft F) :=
  pf_eval_with (fun it => it_grad it c di) (pf_set_grad di) c.

(** PField.hh 145-156: hess(coord, di, dj). *)
Definition pf_call_hess (c : P) (di dj : Z) : M (mesh O K * pfield) (ft F) :=
  pf_eval_with (fun it => it_hess it c di dj) (pf_set_hess di dj) c.

(** PField.hh 158-162: eval. *)
Definition pf_eval (c : P) : M (mesh O K * pfield) unit := pf_call c ;;; mret tt.

(** PField.hh 167, 174-175: the values 0 .. DIM-1 of the loop counters. *)
Definition dims : list Z := map Z.of_nat (seq 0 (kdim K)).

(** PField.hh 164-169: eval_grad. *)
Definition pf_eval_grad (c : P) : M (mesh O K * pfield) unit :=
  mfor dims (fun di => pf_call_grad c di ;;; mret tt).

(** PField.hh 171-177: eval_hess. *)
Definition pf_eval_hess (c : P) : M (mesh O K * pfield) unit :=
  mfor dims (fun di => mfor dims (fun dj => pf_call_hess c di dj ;;; mret tt)).

(** PField.hh 179-183: operator()(). *)
Definition pf_get (p : pfield) : outcome (ft F) := read_member (pf_val p).
(** PField.hh 185-189: grad(di). *)
Definition pf_get_grad (p : pfield) (di : Z) : outcome (ft F) := vget (pf_grad p) di.
(** PField.hh 191-195: hess(di, dj). *)
Definition pf_get_hess (p : pfield) (di dj : Z) : outcome (ft F) :=
  let* row := vget (pf_hess p) di in vget row dj.

End PField.

Arguments pfield {O}.
