(** The hard-coded function objects of Parts.v. *)
From Coq Require Import ZArith List String.
From Verif Require Import Model.Num Model.FuncObj Model.Quad Model.Hexahedron Model.Samples Model.Parts.
Import ListNotations.
Local Open Scope Z_scope.

(** include/IntegrationTools/pfield/interpolation/Quad.hh 162-299: Quad, with the loops of eval_grad (240-244) and eval_hess (246-252). *)
Definition quad_class (O : NumOps) := mkPclass Fresh (quad_new O) [0; 1] [(0, 0); (0, 1); (1, 0); (1, 1)].

(** include/IntegrationTools/pfield/interpolation/Hexahedron.hh 288-436: Hexahedron; eval_grad (370-374) and eval_hess (376-382) leave out the third
    variable. *)
Definition hexahedron_class (O : NumOps) := mkPclass Fresh (hex_new O) [0; 1] [(0, 0); (0, 1); (1, 0); (1, 1)].

(** tests/testlib/Quadratic.hh 117-255: Quadratic (eval_grad 207-210, eval_hess 212-215). *)
Definition quadratic_class (O : NumOps) pw := mkPclass Keeping (quadratic O pw) [0] [(0, 0)].

(** tests/testlib/MyFunc.hh 262-423: MyFunc (eval_grad 364-368, eval_hess 370-376). *)
Definition myfunc_class (O : NumOps) pw := mkPclass Keeping (myfunc O pw) [0; 1] [(0, 0); (0, 1); (1, 0); (1, 1)].

(** tests/testlib/MyPieceWiseFunc.hh 263-406, 698-842, 1170-1314: the pieces (eval_grad 352-356, 788-792, 1260-1264; eval_hess 358-364, 794-800,
    1266-1272). *)
Definition piece_class (O : NumOps) pw (n : string) := mkPclass Sharing (mypiece O pw n) [0; 1] [(0, 0); (0, 1); (1, 0); (1, 1)].
