(** C38-C41: piecewise functions. *)
From Coq Require Import ZArith List Bool String.
From Verif Require Import Model.Outcome Model.PSimple Model.FuncObj Model.Piecewise Spec.Funcs Spec.Piecewise Proofs.FuncObjP Proofs.PiecewiseP Proofs.PrintedP
  Proofs.PiecewiseExamples.
Import ListNotations.
Local Open Scope Z_scope.

(** The function objects of the sample library may be the pieces: they compute their functions and store the last results. *)
Theorem C38_sample_functions : forall V A : Type, computes (@fobj_class V A) built_from /\ simple_forms (@fobj_class V A) built_from /\ stores (@fobj_class V A) built_from.
Proof. exact (fun V A => conj (@fobj_computes V A) (conj (@fobj_simple V A) (@fobj_stores V A))). Qed.
Print Assumptions C38_sample_functions.

(** C38. Value, gradient and Hessian components at [v] are those of the first piece all of whose conditions hold. *)
Theorem C38_first_piece : forall (V A T : Type) (K : fclass V A T) inv (o : pw V T) l v k d q f,
  computes K inv -> described inv o l -> chosen l v k -> nth_error l k = Some d -> snd d q = Some f ->
  gives (ask (pw_class K) q v o) (f v) (fun o' => described inv o' l /\ pw_curr o' = Some (Z.of_nat k)).
Proof. exact @first_piece. Qed.
Print Assumptions C38_first_piece.

Example C38_case_first : described built_from curve curve_cases /\ chosen curve_cases (-4) 0 /\ chosen curve_cases 3 1 /\
  exists o1 o2 o3, ask curve_class QVal 3 curve = RRet o1 7 /\ ask curve_class (QGrad 0) (-4) o1 = RRet o2 (-8) /\
    ask curve_class QVal 12 o2 = RThrow o3 DomainError.
Proof. exact (conj curve_described (conj (curve_negative (-4) eq_refl) (conj (curve_small 3 (conj (Zle_bool_imp_le 0 3 eq_refl) eq_refl)) curve_runs))). Qed.

(** C38. If no piece applies: domain_error, and nothing is lost. *)
Theorem C38_no_piece : forall (V A T : Type) (K : fclass V A T) inv (o : pw V T) (l : cases V A) v q, described inv o l -> unmatched l v ->
  exists o', ask (pw_class K) q v o = RThrow o' DomainError /\ described inv o' l /\ pw_curr o' = pw_curr o /\
    map pc_expr (pw_piece o') = map pc_expr (pw_piece o).
Proof. exact @no_piece. Qed.
Print Assumptions C38_no_piece.

Example C38_case_none : unmatched curve_cases 12.
Proof. exact (curve_large 12 (Zle_bool_imp_le 10 12 eq_refl)). Qed.

(** C38. in_piece tells whether a piece applies, piece which one. *)
Theorem C38_in_piece : forall (V A T : Type) inv (o : pw V T) (l : cases V A) v, described inv o l ->
  (forall k, chosen l v k -> exists o', pw_in_piece v o = RRet o' true /\ described inv o' l) /\
  (unmatched l v -> exists o', pw_in_piece v o = RRet o' false /\ described inv o' l).
Proof. exact @in_piece_iff. Qed.
Print Assumptions C38_in_piece.

Theorem C38_piece_number : forall (V A T : Type) inv (o : pw V T) (l : cases V A) v k, described inv o l -> chosen l v k ->
  exists o', pw_piece_of v o = RRet o' (Z.of_nat k) /\ described inv o' l.
Proof. exact @piece_number. Qed.
Print Assumptions C38_piece_number.

(** C38. When every condition always yields a truth value, one of the two cases arises. *)
Theorem C38_cases_exhaustive : forall (V A : Type) (l : cases V A) v, decisive l -> (exists k, chosen l v k) \/ unmatched l v.
Proof. exact @chosen_or_unmatched. Qed.
Print Assumptions C38_cases_exhaustive.

Example C38_case_decisive : decisive curve_cases.
Proof. exact curve_decisive. Qed.

(** C38. A condition that throws while the pieces are tried in order makes the evaluation throw. *)
Theorem C38_condition_throws : forall (V A T : Type) (K : fclass V A T) inv (o : pw V T) (l1 : cases V A) cs1 c cs2 F l2 v q e,
  described inv o (l1 ++ (cs1 ++ c :: cs2, F) :: l2) -> unmatched l1 v -> holds cs1 v -> c v = Throw e ->
  exists o', ask (pw_class K) q v o = RThrow o' e /\ described inv o' (l1 ++ (cs1 ++ c :: cs2, F) :: l2) /\ pw_curr o' = pw_curr o.
Proof. exact @condition_throws. Qed.
Print Assumptions C38_condition_throws.

Example C38_case_throws : described built_from wary
  ([([fun x => Ok (x <? 0)], family_of square)] ++ ([] ++ (fun _ => Throw RuntimeError) :: [], family_of line) :: []) /\
  unmatched [([fun x => Ok (x <? 0)], family_of square)] 3.
Proof. exact (conj wary_described wary_unmatched). Qed.

(** C38. A piecewise function is again a function that may be a piece. *)
Theorem C38_nested : forall (V A T : Type) (K : fclass V A T) inv, computes K inv ->
  computes (pw_class K) (fun o F => exists l, decisive l /\ described inv o l /\ by_cases l F).
Proof. exact @nested. Qed.
Print Assumptions C38_nested.

Example C38_case_nested : by_cases curve_cases curve_family /\
  exists o1 o2, ask (pw_class curve_class) QVal 3 nest = RRet o1 7 /\ ask (pw_class curve_class) QVal 12 o1 = RRet o2 144.
Proof. exact (conj curve_by_cases nest_runs). Qed.

(** C38. eval_grad and eval_hess act on that piece and on no other. *)
Theorem C38_eval_grad : forall (V A T : Type) (K : fclass V A T) inv v (o : pw V T) (l : cases V A) k d,
  described inv o l -> chosen l v k -> nth_error l k = Some d ->
  exists t, nth_error (map pc_expr (pw_piece o)) k = Some t /\
    match k_eval_grad K v t with
    | RRet t' b => exists o', k_eval_grad (pw_class K) v o = RRet o' b /\ map pc_expr (pw_piece o') = lset (map pc_expr (pw_piece o)) k t' /\ pw_curr o' = Some (Z.of_nat k)
    | RThrow t' e => exists o', k_eval_grad (pw_class K) v o = RThrow o' e /\ map pc_expr (pw_piece o') = lset (map pc_expr (pw_piece o)) k t' /\ pw_curr o' = Some (Z.of_nat k)
    | RExit => k_eval_grad (pw_class K) v o = RExit
    | RUB r => k_eval_grad (pw_class K) v o = RUB r
    | RNoFuel => k_eval_grad (pw_class K) v o = RNoFuel
    end.
Proof. exact (fun V A T K inv v => eval_first inv unit (k_eval_grad K v) v). Qed.
Print Assumptions C38_eval_grad.

Theorem C38_eval_hess : forall (V A T : Type) (K : fclass V A T) inv v (o : pw V T) (l : cases V A) k d,
  described inv o l -> chosen l v k -> nth_error l k = Some d ->
  exists t, nth_error (map pc_expr (pw_piece o)) k = Some t /\
    match k_eval_hess K v t with
    | RRet t' b => exists o', k_eval_hess (pw_class K) v o = RRet o' b /\ map pc_expr (pw_piece o') = lset (map pc_expr (pw_piece o)) k t' /\ pw_curr o' = Some (Z.of_nat k)
    | RThrow t' e => exists o', k_eval_hess (pw_class K) v o = RThrow o' e /\ map pc_expr (pw_piece o') = lset (map pc_expr (pw_piece o)) k t' /\ pw_curr o' = Some (Z.of_nat k)
    | RExit => k_eval_hess (pw_class K) v o = RExit
    | RUB r => k_eval_hess (pw_class K) v o = RUB r
    | RNoFuel => k_eval_hess (pw_class K) v o = RNoFuel
    end.
Proof. exact (fun V A T K inv v => eval_first inv unit (k_eval_hess K v) v). Qed.
Print Assumptions C38_eval_hess.

Example C38_case_eval : exists o1 o2, k_eval_grad curve_class 3 curve = RRet o1 tt /\ told curve_class o1 (QGrad 0) = Ok 2 /\
  k_eval_hess curve_class (-1) o1 = RRet o2 tt /\ told curve_class o2 (QHess 0 0) = Ok 2 /\ told curve_class o2 (QGrad 0) = UB UBUninit.
Proof. exact curve_eval_grad. Qed.

(** C39. simplefunction, grad_simplefunction and hess_simplefunction compute what the piecewise function computes, at every [v]: the same value
    or the same failure. *)
Theorem C39_simple_forms : forall (V A T : Type) (K : fclass V A T) inv q (o : pw V T) (l : cases V A),
  computes K inv -> simple_forms K inv -> described inv o l -> (forall d, In d l -> snd d q <> None) ->
  exists s, ask_simple (pw_class K) q o = Ok s /\ forall v, sp_eval s v = res_outcome (ask (pw_class K) q v o).
Proof. exact @simple_agrees. Qed.
Print Assumptions C39_simple_forms.

Example C39_case : (forall d, In d curve_cases -> snd d (QGrad 0) <> None) /\
  exists s, ask_simple curve_class (QGrad 0) curve = Ok s /\ sp_eval s 3 = Ok 2 /\ sp_eval s (-4) = Ok (-8) /\ sp_eval s 12 = Throw DomainError.
Proof. exact (conj (fun d => curve_has (QGrad 0) d (or_intror (or_introl eq_refl))) curve_simple). Qed.

(** C39. Its in_piece and piece answer the same as well. *)
Theorem C39_in_piece : forall (V A T : Type) (K : fclass V A T) q (o : pw V T) sl v,
  simple_pieces (fun p => let* s := ask_simple K q (pc_expr p) in Ok (mkSP s (pc_cond p))) (pw_piece o) = Ok sl ->
  ps_in_piece sl v = res_outcome (pw_in_piece v o) /\ ps_piece sl v = res_outcome (pw_piece_of v o).
Proof. exact @simple_in_piece. Qed.
Print Assumptions C39_in_piece.

(** C40. The claim that a getter returns the last result of its quantity is false: a derivative taken in another piece switches the getters to
    that piece, whose stored value is an older one, or none. *)
Theorem C40_getter_refuted :
  (exists o', asked curve_class curve [(QVal, -2); (QVal, 3); (QGrad 0, -4)] o' /\ told curve_class o' QVal = Ok 4 /\
    (exists o1 o2, asked curve_class curve [(QVal, -2)] o1 /\ ask curve_class QVal 3 o1 = RRet o2 7 /\ told curve_class o2 QVal = Ok 7)) /\
  (exists o1 o2, ask curve_class QVal 3 curve = RRet o1 7 /\ ask curve_class (QGrad 0) (-4) o1 = RRet o2 (-8) /\
    told curve_class o1 QVal = Ok 7 /\ told curve_class o2 QVal = UB UBUninit).
Proof. exact (conj curve_stale curve_uninit). Qed.
Print Assumptions C40_getter_refuted.

(** C40. What a getter returns after any history: the last result that the piece used last computed for that quantity. *)
Theorem C40_getter : forall (V A T : Type) (K : fclass V A T) inv l m0 h c m (o o' : pw V T) q,
  computes K inv -> stores K inv -> described inv o l -> (forall d q, In d l -> snd d q <> None \/ ~ In q (map fst h)) ->
  (forall k p d, nth_error (pw_piece o) k = Some p -> nth_error l k = Some d -> in_store K (pc_expr p) (snd d) (m0 k)) ->
  pw_curr o = None -> asked (pw_class K) o h o' -> recorded l None m0 h c m -> (forall d, In d l -> snd d q <> None) ->
  told (pw_class K) o' q = match c with None => UB UBUninit | Some k => read_member (m k q) end.
Proof. exact @getter_record. Qed.
Print Assumptions C40_getter.

Example C40_case : (forall k p d, nth_error (pw_piece curve) k = Some p -> nth_error curve_cases k = Some d -> in_store fobj_class (pc_expr p) (snd d) (nothing k)) /\
  exists m, recorded curve_cases None nothing [(QVal, -2); (QVal, 3); (QGrad 0, -4)] (Some 0%nat) m /\ m 0%nat QVal = Some 4 /\ m 1%nat QVal = Some 7.
Proof. exact (conj curve_nothing curve_recorded). Qed.

(** C40. Right after an evaluation its getter is right. *)
Theorem C40_fresh : forall (V A T : Type) (K : fclass V A T) inv l (o o' : pw V T) q v a,
  computes K inv -> stores K inv -> described inv o l -> decisive l -> (forall d, In d l -> snd d q <> None) ->
  ask (pw_class K) q v o = RRet o' a -> told (pw_class K) o' q = Ok a.
Proof. exact @getter_fresh. Qed.
Print Assumptions C40_fresh.

(** C40. As long as a client stays in one piece, the getters are right. *)
Theorem C40_one_piece : forall (V A T : Type) (K : fclass V A T) inv (l : cases V A) k d m0 h (o o' : pw V T) q,
  computes K inv -> stores K inv -> described inv o l -> nth_error l k = Some d -> (forall qv, In qv h -> chosen l (snd qv) k) ->
  (forall d q, In d l -> In q (map fst h) -> snd d q <> None) ->
  (forall k p d, nth_error (pw_piece o) k = Some p -> nth_error l k = Some d -> in_store K (pc_expr p) (snd d) (m0 k)) ->
  pw_curr o = Some (Z.of_nat k) -> asked (pw_class K) o h o' -> snd d q <> None ->
  told (pw_class K) o' q = read_member (fold_left (recall (snd d)) h (m0 k) q).
Proof. exact @getter_one_piece. Qed.
Print Assumptions C40_one_piece.

Example C40_case_one_piece : exists o1 o', ask curve_class QVal (-2) curve = RRet o1 4 /\ pw_curr o1 = Some 0 /\
  asked curve_class o1 [(QVal, -3); (QGrad 0, -4)] o' /\ told curve_class o' QVal = Ok 9 /\ told curve_class o' (QGrad 0) = Ok (-8).
Proof. exact curve_one_piece. Qed.

(** C40. An evaluation outside all pieces changes no stored result. *)
Theorem C40_miss : forall (V A T : Type) (K : fclass V A T) inv (l : cases V A) (o o' : pw V T) q v e q', described inv o l -> unmatched l v ->
  ask (pw_class K) q v o = RThrow o' e -> told (pw_class K) o' q' = told (pw_class K) o q'.
Proof. exact @getter_miss. Qed.
Print Assumptions C40_miss.

Example C40_case_miss : exists o1 o2, ask curve_class QVal 3 curve = RRet o1 7 /\ ask curve_class QVal 12 o1 = RThrow o2 DomainError /\ told curve_class o2 QVal = Ok 7.
Proof. exact curve_miss. Qed.

(** C41. csrc and sym of a piece list the expression and the conditions. *)
Theorem C41_piece_csrc : forall e cs se ss, pr_csrc e = Ok se -> Forall2 (fun c s => pr_csrc c = Ok s) cs ss ->
  exists t, sq_csrc e cs = Ok (se ++ t)%string /\ listed " if " " and " ", " ss t.
Proof. exact piece_csrc. Qed.
Print Assumptions C41_piece_csrc.

Example C41_case_csrc : sq_csrc (word "x") [word "a"; word "b"; word "c"] = Ok "c:x if c:a, c:b and c:c"%string.
Proof. exact eq_refl. Qed.

Theorem C41_piece_sym : forall e cs se ss, pr_sym e = Ok se -> Forall2 (fun c s => pr_sym c = Ok s) cs ss ->
  exists t, sq_sym e cs = Ok (se ++ t)%string /\ listed " if " " and " ", " ss t.
Proof. exact piece_sym. Qed.
Print Assumptions C41_piece_sym.

Example C41_case_sym : sq_sym (word "x") [word "a"; word "b"; word "c"] = Ok "s:x if s:a, s:b and s:c"%string.
Proof. exact eq_refl. Qed.

(** C41. latex prints the conditions between the first and the last in their sym form. *)
Theorem C41_piece_latex : forall e c m z se sc ms sz, pr_latex e = Ok se -> pr_latex c = Ok sc -> Forall2 (fun x s => pr_sym x = Ok s) m ms -> pr_latex z = Ok sz ->
  sq_latex e (c :: app m [z]) = Ok (se ++ (" & \mbox{ if } " ++ sc) ++ String.concat "" (map (fun y => " \mbox{, } " ++ y) ms) ++ (" \mbox{ and } " ++ sz))%string.
Proof. exact piece_latex. Qed.
Print Assumptions C41_piece_latex.

Example C41_case_latex : sq_latex (word "x") [word "a"; word "b"; word "c"] = Ok "l:x & \mbox{ if } l:a \mbox{, } s:b \mbox{ and } l:c"%string.
Proof. exact eq_refl. Qed.

(** C41. The claim that latex is made of the parts' latex forms is false. *)
Theorem C41_latex_refuted : exists e cs se ss, pr_latex e = Ok se /\ Forall2 (fun c s => pr_latex c = Ok s) cs ss /\
  forall t, sq_latex e cs = Ok (se ++ t)%string -> ~ listed " & \mbox{ if } " " \mbox{ and } " " \mbox{, } " ss t.
Proof. exact (ex_intro _ (word "e") (ex_intro _ [word "a"; word "b"; word "c"] (ex_intro _ "l:e"%string (ex_intro _ ["l:a"; "l:b"; "l:c"]%string latex_mixed)))). Qed.
Print Assumptions C41_latex_refuted.

(** C41. With at most one condition it is true. *)
Theorem C41_piece_latex_short : forall e c se sc, pr_latex e = Ok se -> pr_latex c = Ok sc ->
  sq_latex e [] = Ok se /\ sq_latex e [c] = Ok (se ++ " & \mbox{ if } " ++ sc)%string.
Proof. exact (fun e c se sc He Hc => conj (piece_latex_none e se He) (piece_latex_one e c se sc He Hc)). Qed.
Print Assumptions C41_piece_latex_short.

(** C41. The forms of a piecewise function list the forms of its pieces. *)
Theorem C41_whole_csrc : forall l ss, Forall2 (fun c s => pr_csrc c = Ok s) l ss -> exists t, ps_csrc l = Ok t /\ listed "" "; and " "; " ss t.
Proof. exact whole_csrc. Qed.
Print Assumptions C41_whole_csrc.

Theorem C41_whole_sym : forall l ss, Forall2 (fun c s => pr_sym c = Ok s) l ss -> exists t, ps_sym l = Ok t /\ listed "" "; and " "; " ss t.
Proof. exact whole_sym. Qed.
Print Assumptions C41_whole_sym.

Theorem C41_whole_latex : forall l ss, Forall2 (fun c s => pr_latex c = Ok s) l ss ->
  exists t, ps_latex l = Ok (t ++ " \end{array} \right.")%string /\ listed "\left\{ \begin{array}{ll} " " \\ " " \\ " ss t.
Proof. exact whole_latex. Qed.
Print Assumptions C41_whole_latex.

Example C41_case_whole :
  ps_csrc [sq_printed (word "x", [word "a"]); sq_printed (word "y", [word "b"]); sq_printed (word "z", [])] = Ok "c:x if c:a; c:y if c:b; and c:z"%string /\
  ps_sym [word "x"; word "y"] = Ok "s:x; and s:y"%string /\
  ps_latex [word "x"; word "y"] = Ok "\left\{ \begin{array}{ll} l:x \\ l:y \end{array} \right."%string.
Proof. exact (conj eq_refl (conj eq_refl eq_refl)). Qed.

(** C41. The latex form of a piecewise function without pieces is not balanced. *)
Theorem C41_latex_empty_refuted : exists s, ps_latex [] = Ok s /\ occurrences "\end{array}" s = 1%nat /\ occurrences "\begin{array}" s = 0%nat.
Proof. exact (ex_intro _ " \end{array} \right."%string latex_empty). Qed.
Print Assumptions C41_latex_empty_refuted.

(** C41. A form that one of the conditions does not have is not there for the piece either: its exception comes out. *)
Theorem C41_undefined_part : forall e se c1 c c2 x,
  (pr_csrc e = Ok se -> (forall y, In y c1 -> exists s, pr_csrc y = Ok s) -> pr_csrc c = Throw x -> sq_csrc e (c1 ++ c :: c2) = Throw x) /\
  (pr_sym e = Ok se -> (forall y, In y c1 -> exists s, pr_sym y = Ok s) -> pr_sym c = Throw x -> sq_sym e (c1 ++ c :: c2) = Throw x).
Proof. exact piece_throws. Qed.
Print Assumptions C41_undefined_part.
