(** C52: names, basis sets and series through the C interface. *)
From Coq Require Import ZArith QArith List Ascii String Reals.
From Verif Require Import Model.Outcome Model.Num Model.NumInst Model.PNDArray Model.BasisSet Model.Series Model.Samples Model.CInterface
  Spec.Tensor Spec.Basis Spec.Series Spec.Poly Spec.CInterface Proofs.SeriesRP Proofs.CInterfaceP Proofs.SampleSeriesP Proofs.CInterfaceExamples.
Import ListNotations.
Local Open Scope string_scope.
Local Open Scope list_scope.
Local Open Scope Z_scope.

(** C52. A name or description is copied, with its NUL, into a buffer that has room for both; the rest of the buffer is untouched. *)
Theorem C52_name_fits : forall s buffer, plain_text s -> (String.length s < List.length buffer)%nat ->
  exists buffer', c_text s buffer = Ok buffer' /\ spells buffer' s (skipn (S (String.length s)) buffer).
Proof. exact name_fits. Qed.
Print Assumptions C52_name_fits.

(** C52. A smaller buffer is overrun: the caller cannot pass its size. *)
Theorem C52_name_overruns : forall s buffer, plain_text s -> (List.length buffer <= String.length s)%nat -> c_text s buffer = UB UBOutOfBounds.
Proof. exact name_overruns. Qed.
Print Assumptions C52_name_overruns.

(** C52. Of a name with a NUL inside, only the part before it is copied. *)
Theorem C52_name_cut : forall s t buffer, plain_text s -> c_text (s ++ String zero t) buffer = c_text s buffer.
Proof. exact name_cut. Qed.
Print Assumptions C52_name_cut.

Example C52_case_name : c_text "abc" ["x"; "x"; "x"; "x"; "x"]%char = Ok ["a"; "b"; "c"; zero; "x"]%char /\
  c_text "abc" ["x"; "x"; "x"]%char = UB UBOutOfBounds.
Proof. split; reflexivity. Qed.

(** C52. Checking out a basis set by name: the first class of that name makes it, with every stored result 0; too many terms end the program,
    a negative number throws std::length_error, and a name the library does not have std::runtime_error. *)
Theorem C52_checkout : forall (O : NumOps) pre (c : bclass O) post N, ~ In (bc_name c) (map bc_name pre) ->
  (0 <= N <= int_max -> within N (bc_limit c) -> exists b, checkout_set (pre ++ c :: post) (bc_name c) N = Ok b /\
     bs_name b = bc_name c /\ bs_size b = N /\ (forall k, terms_of (bs_fun b) (bs_dfun b) (bs_ddfun b) k = terms_of (bc_fun c) (bc_dfun c) (bc_ddfun c) k) /\
     (forall k t, 0 <= t < N -> bstored b k t = Ok (nofZ O 0))) /\
  (0 <= N <= int_max -> ~ within N (bc_limit c) -> checkout_set (pre ++ c :: post) (bc_name c) N = Exit) /\
  (- 2 ^ 31 <= N < 0 -> checkout_set (pre ++ c :: post) (bc_name c) N = Throw LengthError).
Proof. exact (@checkout_cases). Qed.
Print Assumptions C52_checkout.
Theorem C52_checkout_unknown : forall (O : NumOps) lib name N, ~ In name (map (@bc_name O) lib) -> checkout_set lib name N = Throw RuntimeError.
Proof. exact (@checkout_unknown). Qed.
Print Assumptions C52_checkout_unknown.

(** C52. PSeriesFunction_dsis_setnew builds a series over the given sets: its shape is their sizes, its coefficients and value are 0, and it
    has copies of the sets with their stored results. Pointers behind the first [order] are not used. *)
Theorem C52_setnew : forall (O : NumOps) bs extra, proper_basis (S := num_series O) bs ->
  exists s, dsis_setnew (map Some bs ++ extra) (Z.of_nat (List.length bs)) = Ok s /\ series_over (S := num_series O) bs (nofZ O 0) (nofZ O 1) s /\
    has_shape s (sizes (S := num_series O) bs) /\ all_zero s (sizes (S := num_series O) bs) /\ se_get s = Ok (nofZ O 0) /\
    (forall k j b t, nth_error bs j = Some b -> 0 <= t < bs_size b -> stored_basis (S := num_series O) s k (Z.of_nat j) t = bstored b k t).
Proof. exact (@setnew_ok). Qed.
Print Assumptions C52_setnew.

(** C52. PSeriesFunction_dsis_set replaces whatever the series was by one over new sets of the same classes and sizes, so with the same
    functions, but with every stored result 0. *)
Theorem C52_set : forall (O : NumOps) lib (bs : list (bset (num O) (num O))) extra s, Forall (library_set lib) bs -> fit_sizes (sizes (S := num_series O) bs) ->
  exists s' bs', dsis_set lib (map Some bs ++ extra) (Z.of_nat (List.length bs)) s = RRet s' tt /\
    Forall (library_set lib) bs' /\ map (@bs_name _ _) bs' = map (@bs_name _ _) bs /\
    proper_basis (S := num_series O) bs' /\ sizes (S := num_series O) bs' = sizes (S := num_series O) bs /\
    (forall k phis, implements (S := num_series O) k bs phis -> implements (S := num_series O) k bs' phis) /\
    series_over (S := num_series O) bs' (se_zero s) (se_one s) s' /\ has_shape s' (sizes (S := num_series O) bs) /\
    all_zero s' (sizes (S := num_series O) bs) /\ se_get s' = Ok (se_zero s) /\
    (forall k j b t, nth_error bs j = Some b -> 0 <= t < bs_size b -> stored_basis (S := num_series O) s' k (Z.of_nat j) t = Ok (nofZ O 0)).
Proof. exact (@dsis_set_ok). Qed.
Print Assumptions C52_set.

(** C52. So set and setnew differ: the stored results of sets that were evaluated are lost by set. *)
Theorem C52_set_keeps_results_refuted : exists (bs : list (bset Q Q)) s s', Forall (library_set (sample_library QOps (fun x _ : Q => x))) bs /\
  dsis_setnew (O := QOps) (map Some bs) 2 = Ok s /\ dsis_set (O := QOps) (sample_library QOps (fun x _ : Q => x)) (map Some bs) 2 (dsis_new QOps) = RRet s' tt /\
  stored_basis (S := num_series QOps) s KVal 0 1 <> stored_basis (S := num_series QOps) s' KVal 0 1.
Proof. exact forgets_witness. Qed.
Print Assumptions C52_set_keeps_results_refuted.

(** C52. A set whose class the library does not have makes set throw and leaves the series as it was. *)
Theorem C52_set_unknown : forall (O : NumOps) lib (bs : list (bset (num O) (num O))) b rest s, Forall (library_set lib) bs ->
  ~ In (bs_name b) (map bc_name lib) ->
  dsis_set lib (map Some (bs ++ b :: rest)) (Z.of_nat (List.length (bs ++ b :: rest))) s = RThrow s RuntimeError.
Proof. exact (@set_unknown). Qed.
Print Assumptions C52_set_unknown.
Example C52_case_unknown : exists b : bset Q Q, checkout_set (sample_library QOps (fun x _ : Q => x)) "Monomial" 2 = Ok b /\
  dsis_set (O := QOps) (firstn 1 (sample_library QOps (fun x _ : Q => x))) [Some b] 1 (dsis_new QOps) = RThrow (dsis_new QOps) RuntimeError.
Proof. exact unknown_case. Qed.

(** C52. No sets at all (order 0 or negative) is undefined behaviour, for set and for setnew. *)
Theorem C52_no_sets : forall (O : NumOps) lib arr order s, order <= 0 ->
  dsis_setnew (O := O) arr order = UB UBOutOfBounds /\ dsis_set lib arr order s = RUB UBOutOfBounds.
Proof. exact (@no_sets). Qed.
Print Assumptions C52_no_sets.

(** C52. So is an [order] beyond the array, or a NULL pointer in it. *)
Theorem C52_bad_pointers : forall (O : NumOps) lib (bs : list (bset (num O) (num O))) order s, Forall (library_set lib) bs ->
  Z.of_nat (List.length bs) < order ->
  dsis_setnew (map Some bs) order = UB UBOutOfBounds /\ dsis_set lib (map Some bs) order s = RUB UBOutOfBounds /\
  (forall rest, dsis_setnew (map Some bs ++ None :: rest) order = UB UBNull /\ dsis_set lib (map Some bs ++ None :: rest) order s = RUB UBNull).
Proof. exact (@bad_pointer). Qed.
Print Assumptions C52_bad_pointers.

(** C52. Assigning a coefficient by its indices or by its position is the same; it is read back either way and no other one changes;
    linear_index and tensor_indices convert between the two. *)
Theorem C52_coefficients : forall (O : NumOps) bs z o s t a, proper_basis (S := num_series O) bs -> series_over (S := num_series O) bs z o s ->
  valid_index (sizes (S := num_series O) bs) t ->
  exists s', dsis_set_tensor_coeff t a s = RRet s' tt /\ dsis_set_linear_coeff (row_major (sizes (S := num_series O) bs) t) a s = RRet s' tt /\
    series_over (S := num_series O) bs z o s' /\ has_shape s' (sizes (S := num_series O) bs) /\
    dsis_get_tensor_coeff s' t = Ok a /\ dsis_get_linear_coeff s' (row_major (sizes (S := num_series O) bs) t) = Ok a /\
    (forall i, i <> row_major (sizes (S := num_series O) bs) t -> dsis_get_linear_coeff s' i = dsis_get_linear_coeff s i) /\
    dsis_linear_index s' t = Ok (row_major (sizes (S := num_series O) bs) t) /\
    (forall term, List.length term = List.length bs -> dsis_tensor_indices s' (row_major (sizes (S := num_series O) bs) t) term = Ok t).
Proof. exact (@coeff_assigned). Qed.
Print Assumptions C52_coefficients.

(** A Monomial set of two terms evaluated at 3 and a Chebyshev set of three: setnew keeps the 3, set does not; with coefficient (1, 2) = 5 the
    series at (3, 1/2) is 5 * 3 * T_2(1/2) = -15/2 either way. *)
Example C52_case_setnew : demo_setnew = Ok (3%Q, (-15 # 2)%Q, 3, 5, 6, 5%Q).
Proof. exact demo_setnew_value. Qed.
Example C52_case_set : demo_set = Ok (0%Q, (-15 # 2)%Q).
Proof. exact demo_set_value. Qed.

(** C52. Sample library to series, end to end: over any Monomial and Chebyshev sets checked out of it, however they were used, the series is
    the sum of its coefficients times products of x^n and T_n, and the gradient and Hessian are that function's partial derivatives. *)
Theorem C52_sample_series : forall pw (bs : list (bset R R)) phis one (s : series RS) c xs,
  Forall (library_set (sample_library ROps pw)) bs -> Forall2 family_named (map (@bs_name _ _) bs) phis -> fit_sizes (sizes (S := RS) bs) ->
  series_over (S := RS) bs 0%R one s -> coefficients s (sizes (S := RS) bs) c -> List.length xs = List.length bs ->
  (exists s', se_call (S := RS) xs s = RRet s' (series_fun (sizes (S := RS) bs) c phis xs)) /\
  (exists s', se_eval_grad (S := RS) xs s = RRet s' tt /\
     forall i, 0 <= i < Z.of_nat (List.length bs) ->
       exists g, se_get_grad s' i = Ok g /\ partial (series_fun (sizes (S := RS) bs) c phis) i xs g) /\
  (exists s', se_eval_hess (S := RS) xs s = RRet s' tt /\
     forall i j, 0 <= i < Z.of_nat (List.length bs) -> 0 <= j < Z.of_nat (List.length bs) ->
       exists h, se_get_hess s' i j = Ok h /\ se_get_hess s' j i = Ok h /\ second (series_fun (sizes (S := RS) bs) c phis) i j xs h).
Proof. exact sample_series. Qed.
Print Assumptions C52_sample_series.

Example C52_case_sample_series : forall pw, exists (bs : list (bset R R)) phis s, Forall (library_set (sample_library ROps pw)) bs /\
  Forall2 family_named (map (@bs_name _ _) bs) phis /\ sizes (S := RS) bs = [2; 3] /\ fit_sizes (sizes (S := RS) bs) /\
  dsis_setnew (O := ROps) (map Some bs) 2 = Ok s /\ series_over (S := RS) bs 0%R 1%R s.
Proof. exact real_sets. Qed.
