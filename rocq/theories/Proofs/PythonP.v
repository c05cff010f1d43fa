(** Lemmas about the Python package. *)
From Coq Require Import ZArith List Bool Ascii String Lia.
From Verif Require Import Model.Outcome Model.Num Model.PNDArray Model.BasisSet Model.Series Model.Stream Model.SeriesIO Model.CInterface Model.Python
  Spec.Tensor Spec.NDHistory Spec.Basis Spec.Series Spec.SeriesIO Spec.Vtk Spec.CInterface Spec.Python
  Proofs.OutcomeP Proofs.PNDArrayP Proofs.SeriesP Proofs.FlexP Proofs.StreamP Proofs.SeriesIOP Proofs.CInterfaceP.
Import ListNotations.
Local Open Scope Z_scope.

(** ** Calls *)
Definition cty_eq : forall a b : cty, {a = b} + {a <> b}.
Proof. decide equality; decide equality. Defined.
Definition intendedb (class method symbol : string) : bool :=
  if String.eqb method "__init__"
  then existsb (String.eqb symbol) [(c_prefix class ++ "_new")%string; (c_prefix class ++ "_setnew")%string; "ScalarField2D"%string; "ScalarField3D"%string]
  else String.eqb symbol (c_prefix class ++ "_" ++ method)%string.
Definition fitsb (c : pycall) : bool :=
  intendedb (py_class c) (py_method c) (py_symbol c) &&
  existsb (fun f => String.eqb (py_symbol c) (fst (fst f)) && if list_eq_dec cty_eq (py_args c) (snd f) then true else false) c_functions.
Definition misfitb (c : pycall) : bool := existsb (fun m => String.eqb (py_class c) (fst m) && String.eqb (py_method c) (snd m)) misfits.

Lemma intendedb_spec : forall class m s, intendedb class m s = true <-> intended class m s.
Proof.
  intros class m s. unfold intendedb, intended. destruct (String.eqb m "__init__").
  - rewrite existsb_exists. split; [intros (x & Hx & E); apply String.eqb_eq in E; subst; exact Hx|intros H; exists s; split; [exact H|apply String.eqb_refl]].
  - apply String.eqb_eq.
Qed.
Lemma fitsb_spec : forall c, fitsb c = true <-> fits c.
Proof.
  intros c. unfold fitsb, fits. rewrite andb_true_iff, intendedb_spec, existsb_exists. split; intros [H1 H2]; (split; [exact H1|]).
  - destruct H2 as ([[n l] a] & Hin & E). cbn [fst snd] in E. apply andb_true_iff in E. destruct E as [E1 E2]. apply String.eqb_eq in E1.
    destruct (list_eq_dec cty_eq (py_args c) a) as [->|]; [|discriminate]. exists l. rewrite E1. exact Hin.
  - destruct H2 as (l & Hin). exists (py_symbol c, l, py_args c). split; [exact Hin|]. cbn [fst snd]. rewrite String.eqb_refl.
    destruct (list_eq_dec cty_eq (py_args c) (py_args c)); [reflexivity|contradiction].
Qed.
Lemma misfitb_spec : forall c, misfitb c = true <-> In (py_class c, py_method c) misfits.
Proof.
  intros c. unfold misfitb. rewrite existsb_exists. split.
  - intros ([a b] & H & E). cbn [fst snd] in E. apply andb_true_iff in E. destruct E as [E1 E2]. apply String.eqb_eq in E1, E2. subst. exact H.
  - intros H. exists (py_class c, py_method c). split; [exact H|]. cbn [fst snd]. now rewrite !String.eqb_refl.
Qed.
Lemma all_calls : forallb (fun c => Bool.eqb (fitsb c) (negb (misfitb c))) python_calls = true.
Proof. vm_compute. reflexivity. Qed.
Lemma calls_fit : forall c, In c python_calls -> (fits c <-> ~ In (py_class c, py_method c) misfits).
Proof.
  intros c Hc. pose proof all_calls as H. rewrite forallb_forall in H. specialize (H c Hc). apply eqb_prop in H.
  rewrite <- fitsb_spec, <- misfitb_spec, H. destruct (misfitb c); simpl; split; intros; try discriminate; auto.
Qed.

(** ** Names *)
Lemma text_empty : py_text "" = Ok None.
Proof. reflexivity. Qed.
Lemma text_wild : forall s, plain_text s -> s <> ""%string -> exists u, py_text s = UB u.
Proof.
  intros s Hp Hs. unfold py_text. destruct (Nat.lt_ge_cases (String.length s) 8) as [L|L].
  - destruct (name_fits s null_pointer Hp) as (b & E & Sp); [exact L|]. rewrite E. cbn [obind]. unfold spells in Sp.
    destruct s as [|a s]; [contradiction|]. rewrite Sp. cbn [list_ascii_of_string app forallb].
    destruct (Ascii.eqb_spec zero a) as [<-|_]; [exfalso; apply Hp; simpl; auto|]. cbn [andb]. eexists; reflexivity.
  - rewrite (name_overruns s null_pointer Hp) by exact L. eexists; reflexivity.
Qed.

(** ** Words and lines *)
Lemma space_blank : forall c, space c = true <-> blank c.
Proof.
  intros c. unfold blank, newline. split.
  - destruct c as [[] [] [] [] [] [] [] []]; vm_compute; intros H; try discriminate; auto 10.
  - intros [<-|[<-|[<-|[<-|[<-|[<-|[]]]]]]]; reflexivity.
Qed.
Lemma not_space : forall c, ~ blank c -> space c = false.
Proof. intros c H. destruct (space c) eqn:E; [apply space_blank in E; contradiction|reflexivity]. Qed.

Lemma split_space : forall post w, Forall blank post -> split_from w post = match w with [] => [] | _ => [rev w] end.
Proof.
  induction post as [|c post IH]; intros w H; [reflexivity|]. inversion H as [|? ? Hc H']; subst. cbn [split_from].
  rewrite (proj2 (space_blank c) Hc). destruct w; rewrite IH by exact H'; reflexivity.
Qed.
Lemma split_word : forall w post acc, Forall (fun c => ~ blank c) w -> Forall blank post -> acc ++ w <> [] -> split_from acc (w ++ post) = [rev acc ++ w].
Proof.
  induction w as [|c w IH]; intros post acc Hw Hp Hn; cbn [app].
  - rewrite app_nil_r in *. rewrite split_space by exact Hp. destruct acc; [contradiction|reflexivity].
  - inversion Hw as [|? ? Hc Hw']; subst. cbn [split_from]. rewrite (not_space c Hc). rewrite IH; auto; [|simpl; discriminate].
    simpl. now rewrite <- app_assoc.
Qed.
Lemma split_pre : forall pre b rest acc, blank b -> exists ws, split_from acc (pre ++ b :: rest) = ws ++ split_from [] rest.
Proof.
  induction pre as [|c pre IH]; intros b rest acc Hb; cbn [app split_from].
  - rewrite (proj2 (space_blank b) Hb). destruct acc; [exists []|eexists [_]]; reflexivity.
  - destruct (space c).
    + destruct acc as [|a acc]; [apply IH; exact Hb|]. destruct (IH b rest [] Hb) as (ws & E). rewrite E. eexists (_ :: ws). reflexivity.
    + apply IH; exact Hb.
Qed.
Lemma split_last : forall l w, last_word l w -> exists r, rev (split (l ++ [newline])) = w :: r.
Proof.
  intros l w (_ & pre & post & -> & Hw & Hb & Hp & Hpre). unfold split.
  assert (Hp' : Forall blank (post ++ [newline])) by (apply Forall_app; split; [exact Hp|constructor; [unfold blank; simpl; auto|constructor]]).
  replace ((pre ++ w ++ post) ++ [newline]) with (pre ++ w ++ (post ++ [newline])) by (rewrite <- !app_assoc; reflexivity).
  destruct Hpre as [->|(pre' & b & -> & Hbb)].
  - cbn [app]. rewrite split_word; auto. exists []. reflexivity.
  - rewrite <- app_assoc. cbn [app]. destruct (split_pre pre' b (w ++ post ++ [newline]) [] Hbb) as (ws & ->).
    rewrite split_word; auto. cbn [rev app]. rewrite rev_app_distr. cbn [rev app]. eauto.
Qed.
Lemma nl_newline : nl = newline.
Proof. reflexivity. Qed.
Lemma readline_line : forall l rest, ~ In newline l -> readline (l ++ newline :: rest) = (l ++ [newline], rest).
Proof.
  induction l as [|c l IH]; intros rest H; cbn [app readline]; [reflexivity|].
  destruct (Ascii.eqb_spec c nl) as [->|_]; [exfalso; apply H; left; reflexivity|]. rewrite IH; [reflexivity|]. intros Hi. apply H. right. exact Hi.
Qed.

(** ** Reading *)
Section Series.
Context {O : NumOps}.
Local Notation D := (num O).
Local Notation S := (num_series O).
Implicit Types (s : series S).

Lemma set_linear_values : forall s done x todo a, nd_val (se_coeff s) = done ++ x :: todo ->
  dsis_set_linear_coeff (Z.of_nat (List.length done)) a s = RRet (with_values (S := S) s (done ++ a :: todo)) tt.
Proof.
  intros s done x todo a H. unfold dsis_set_linear_coeff, on_coeff, mbind, mget, mlift, mput, nd_set. cbn [sa num_series] in *.
  rewrite H, vset_ok by (rewrite app_length; simpl; lia). cbn [obind]. rewrite Nat2Z.id.
  assert (E : lset (done ++ x :: todo) (List.length done) a = done ++ a :: todo).
  { clear. induction done as [|y done IH]; simpl; [reflexivity|]. now rewrite IH. }
  rewrite E. reflexivity.
Qed.

Lemma with_values_twice : forall s v w, with_values (S := S) (with_values (S := S) s v) w = with_values (S := S) s w.
Proof. reflexivity. Qed.

(** Reading lines one after the other. *)
Lemma read_lines : forall (tofloat : text -> option D) ls (vals : list D) s done todo n rest,
  Forall2 (fun l a => exists w, last_word l w /\ tofloat w = Some a) ls vals ->
  nd_val (se_coeff s) = done ++ todo -> (List.length ls <= List.length todo)%nat ->
  py_read_from tofloat (map Z.of_nat (seq (List.length done) (List.length ls + n))) (s, lines ls ++ rest) =
  py_read_from tofloat (map Z.of_nat (seq (List.length done + List.length ls) n)) 
    (match ls with [] => s | _ => with_values (S := S) s (done ++ vals ++ skipn (List.length ls) todo) end, rest).
Proof.
  intros tofloat ls vals s done todo n rest H. revert s done todo. induction H as [|l a ls vals (w & Hw & Ha) H IH]; intros s done todo Hv Hl.
  - rewrite Nat.add_0_r. reflexivity.
  - destruct todo as [|x todo]; [simpl in Hl; lia|]. cbn [List.length Nat.add seq map].
    change (lines (l :: ls)) with ((l ++ [newline]) ++ lines ls). rewrite <- !app_assoc. cbn [app].
    cbn [py_read_from fst snd]. rewrite readline_line by apply Hw. destruct (split_last l w Hw) as (r & ->). rewrite Ha.
    rewrite (set_linear_values s done x todo a Hv).
    specialize (IH (with_values (S := S) s (done ++ a :: todo)) (done ++ [a]) todo).
    replace (List.length (done ++ [a])) with (Datatypes.S (List.length done)) in IH by (rewrite app_length; simpl; lia).
    etransitivity; [apply IH; [cbn [with_values se_coeff nd_val]; now rewrite <- app_assoc|apply le_S_n; exact Hl]|].
    rewrite Nat.add_succ_r. cbn [Nat.add skipn].
    destruct ls as [|l' ls'].
    + inversion H; subst. reflexivity.
    + rewrite with_values_twice, <- app_assoc. reflexivity.
Qed.

Lemma with_values_same : forall s, with_values (S := S) s (nd_val (se_coeff s)) = s.
Proof. intros [[d u v o vol] a b c e f g]. reflexivity. Qed.

Lemma read_prefix : forall (tofloat : text -> option D) ls (vals : list D) s rest, nd_reachable (sdflt S) (se_coeff s) ->
  Forall2 (fun l a => exists w, last_word l w /\ tofloat w = Some a) ls vals -> Z.of_nat (List.length ls) <= dsis_volume s ->
  py_read_coeff tofloat (s, lines ls ++ rest) =
  py_read_from tofloat (map Z.of_nat (seq (List.length ls) (Z.to_nat (dsis_volume s) - List.length ls)))
    (with_values (S := S) s (vals ++ skipn (List.length ls) (nd_val (se_coeff s))), rest).
Proof.
  intros tofloat ls vals s rest Hr H Hl. pose proof (nd_wf_length _ _ (nd_reachable_wf _ _ _ Hr)) as Hlen.
  unfold py_read_coeff, zseq. cbn [fst]. 
  replace (Z.to_nat (dsis_volume s)) with (List.length ls + (Z.to_nat (dsis_volume s) - List.length ls))%nat at 1 by lia.
  rewrite (read_lines tofloat ls vals s [] (nd_val (se_coeff s)) _ rest H eq_refl) by (unfold dsis_volume in Hl; cbn [sa num_series] in *; lia).
  cbn [List.length Nat.add app]. destruct ls as [|l ls]; [|reflexivity]. inversion H; subst. cbn [app List.length skipn]. rewrite with_values_same. reflexivity.
Qed.

Lemma read_all : forall (tofloat : text -> option D) ls (vals : list D) s rest, nd_reachable (sdflt S) (se_coeff s) ->
  Forall2 (fun l a => exists w, last_word l w /\ tofloat w = Some a) ls vals -> Z.of_nat (List.length ls) = dsis_volume s ->
  py_read_coeff tofloat (s, lines ls ++ rest) = RRet (with_values (S := S) s vals, rest) PyDone.
Proof.
  intros tofloat ls vals s rest Hr H Hl. rewrite (read_prefix tofloat ls vals s rest Hr H) by lia.
  replace (Z.to_nat (dsis_volume s) - List.length ls)%nat with 0%nat by lia. cbn [seq map py_read_from].
  pose proof (nd_wf_length _ _ (nd_reachable_wf _ _ _ Hr)) as Hlen. rewrite skipn_all2 by (unfold dsis_volume in Hl; cbn [sa num_series] in *; lia).
  now rewrite app_nil_r.
Qed.

Lemma read_stops : forall (tofloat : text -> option D) ls (vals : list D) s, nd_reachable (sdflt S) (se_coeff s) ->
  Forall2 (fun l a => exists w, last_word l w /\ tofloat w = Some a) ls vals -> Z.of_nat (List.length ls) < dsis_volume s ->
  let s' := with_values (S := S) s (vals ++ skipn (List.length ls) (nd_val (se_coeff s))) in
  py_read_coeff tofloat (s, lines ls) = RRet (s', []) PyIndexError /\
  (forall l rest, blank_line l -> py_read_coeff tofloat (s, lines ls ++ l ++ newline :: rest) = RRet (s', rest) PyIndexError) /\
  (forall l w rest, last_word l w -> tofloat w = None -> py_read_coeff tofloat (s, lines ls ++ l ++ newline :: rest) = RRet (s', rest) PyValueError).
Proof.
  intros tofloat ls vals s Hr H Hl s'.
  assert (En : exists n, (Z.to_nat (dsis_volume s) - List.length ls)%nat = Datatypes.S n) by (exists (pred (Z.to_nat (dsis_volume s) - List.length ls)); lia).
  destruct En as (n & En). split; [|split].
  - pose proof (read_prefix tofloat ls vals s [] Hr H (Z.lt_le_incl _ _ Hl)) as E. rewrite app_nil_r in E. etransitivity; [exact E|]. rewrite En. reflexivity.
  - intros l rest [Hn Hb]. etransitivity; [exact (read_prefix tofloat ls vals s _ Hr H (Z.lt_le_incl _ _ Hl))|]. rewrite En. cbn [seq map py_read_from fst snd].
    rewrite readline_line by exact Hn. unfold split. rewrite split_space; [reflexivity|].
    apply Forall_app; split; [exact Hb|constructor; [unfold blank; simpl; auto|constructor]].
  - intros l w rest Hw Hf. etransitivity; [exact (read_prefix tofloat ls vals s _ Hr H (Z.lt_le_incl _ _ Hl))|]. rewrite En. cbn [seq map py_read_from fst snd].
    rewrite readline_line by apply Hw. destruct (split_last l w Hw) as (r & ->). rewrite Hf. reflexivity.
Qed.

(** ** Printing *)
Lemma tensor_indices_any : forall s i term, nd_reachable (sdflt S) (se_coeff s) -> 0 <= i < dsis_volume s ->
  List.length term = Z.to_nat (dsis_order s) -> exists t, tensor_indices (se_coeff s) i term = Ok t /\ py_tensor_indices s i = Ok t /\ List.length t = List.length term.
Proof.
  intros s i term Hr Hi Hl. pose proof (nd_reachable_wf _ _ _ Hr) as W. destruct (row_major_surj _ (se_coeff s) i W Hi) as (Hne & t & Ht & E).
  destruct (nd_wf_view _ _ W) as (Vo & _). assert (Hd : List.length (nd_dim (se_coeff s)) = Z.to_nat (dsis_order s)) by (unfold dsis_order; cbn [sa num_series] in *; lia).
  exists t. split; [|split].
  - rewrite <- E. apply tensor_indices_wf; auto. now rewrite Hl, Hd.
  - unfold py_tensor_indices, dsis_tensor_indices. rewrite <- E. apply (tensor_indices_wf _ (se_coeff s)); auto. rewrite repeat_length. now rewrite Hd.
  - rewrite (valid_index_length _ _ Ht). now rewrite Hd, Hl.
Qed.
Lemma print_loop : forall (str : D -> text) s is term out, nd_reachable (sdflt S) (se_coeff s) -> List.length term = Z.to_nat (dsis_order s) ->
  Forall (fun i => 0 <= i < dsis_volume s) is ->
  exists term' out',
  ofold (fun st i => let* term := tensor_indices (se_coeff s) i (fst st) in let* a := nd_get (se_coeff s) i in
                     Ok (term, snd st ++ print_line (S := S) str term a)) is (term, out) = Ok (term', out') /\
  ofold (fun out i => let* term := py_tensor_indices s i in let* a := dsis_get_linear_coeff s i in
                      Ok (out ++ List.concat (map (fun t => print_int t ++ [" "%char]) term) ++ str a ++ [nl])) is out = Ok out'.
Proof.
  intros str s is. induction is as [|i is IH]; intros term out Hr Hl HF; [exists term, out; split; reflexivity|].
  inversion HF as [|? ? Hi HF']; subst. destruct (tensor_indices_any s i term Hr Hi Hl) as (t & E1 & E2 & E3).
  cbn [ofold fst snd]. rewrite E1, E2. cbn [obind]. pose proof (nd_wf_length _ _ (nd_reachable_wf _ _ _ Hr)) as Hlen.
  destruct (proj2 (vget_ok_iff _ (nd_val (se_coeff s)) i)) as [a Ha]; [unfold dsis_volume in Hi; cbn [sa num_series] in *; lia|].
  unfold dsis_get_linear_coeff, nd_get. cbn [sa num_series] in *. rewrite Ha. cbn [obind].
  destruct (IH t (out ++ print_line (S := S) str t a) Hr) as (t' & o' & F1 & F2); [now rewrite E3|exact HF'|].
  exists t', o'. split; [exact F1|]. exact F2.
Qed.
Lemma print_same : forall (str : D -> text) s, nd_reachable (sdflt S) (se_coeff s) ->
  exists t, py_print_coeff str s = Ok t /\ se_print_coeff (S := S) str s = Ok t.
Proof.
  intros str s Hr. destruct (print_loop str s (zseq (dsis_volume s)) (repeat 0 (Z.to_nat (dsis_order s))) [] Hr) as (t & o & E1 & E2).
  - apply repeat_length.
  - apply Forall_forall. intros i Hi. apply zseq_in in Hi. exact Hi.
  - exists o. split; [exact E2|]. unfold se_print_coeff, print_table. unfold dsis_volume, dsis_order in E1. cbn [sa num_series] in *. rewrite E1. reflexivity.
Qed.
End Series.

(** ** Printing, then reading *)
Lemma int_no_newline : forall t z, int_text t z -> ~ In newline t.
Proof.
  assert (D : forall t n, decimal t n -> ~ In newline t).
  { intros t n H Hi. destruct (decimal_word _ _ H) as [_ F]. rewrite Forall_forall in F. apply (F _ Hi). unfold blank. simpl. auto. }
  intros t z [t' n H|t' n H]; [exact (D _ _ H)|]. intros [E|Hi]; [discriminate|exact (D _ _ H Hi)].
Qed.
Lemma indices_no_newline : forall its term, Forall2 int_text its term -> ~ In newline (List.concat (map (fun w => w ++ [" "%char]) its)).
Proof.
  intros its term H. induction H as [|t z its term Ht H IH]; [auto|]. cbn [map List.concat]. rewrite !in_app_iff.
  intros [[Hi|[E|[]]]|Hi]; [exact (int_no_newline _ _ Ht Hi)|discriminate|exact (IH Hi)].
Qed.
Lemma indices_end : forall its, List.concat (map (fun w : text => w ++ [" "%char]) its) = [] \/
  exists pre b, List.concat (map (fun w : text => w ++ [" "%char]) its) = pre ++ [b] /\ blank b.
Proof.
  intros its. destruct its as [|w its]; [left; reflexivity|right]. revert w. induction its as [|v its IH]; intros w.
  - exists w, " "%char. cbn [map List.concat]. rewrite app_nil_r. split; [reflexivity|unfold blank; simpl; auto].
  - destruct (IH v) as (pre & b & E & Hb). exists ((w ++ [" "%char]) ++ pre), b. cbn [map List.concat] in *. rewrite E. split; [now rewrite !app_assoc|exact Hb].
Qed.
Lemma table_lines : forall (A : Type) (str : A -> text) dims i vals t, (forall a, word (str a)) -> table (fun w a => w = str a) dims i vals t ->
  exists ls, t = lines ls /\ Forall2 (fun l a => last_word l (str a)) ls vals.
Proof.
  intros A str dims i vals t Hs H. induction H as [i|i a vals term its nt t Hv Hr Hits -> H (ls & -> & HF)].
  - exists []. split; [reflexivity|constructor].
  - exists ((List.concat (map (fun w => w ++ [" "%char]) its) ++ str a) :: ls). split.
    + unfold lines. cbn [map List.concat]. rewrite <- !app_assoc. reflexivity.
    + constructor; [|exact HF]. destruct (Hs a) as [Hn Hf]. split.
      * rewrite in_app_iff. intros [Hi|Hi]; [exact (indices_no_newline _ _ Hits Hi)|]. rewrite Forall_forall in Hf. apply (Hf _ Hi). unfold blank. simpl. auto.
      * exists (List.concat (map (fun w => w ++ [" "%char]) its)), []. rewrite app_nil_r. split; [reflexivity|]. split; [exact Hn|]. split; [exact Hf|]. split; [constructor|]. exact (indices_end its).
Qed.
Lemma table_size : forall (A : Type) (num_text : text -> A -> Prop) ls vals, Forall2 num_text ls vals -> List.length ls = List.length vals.
Proof. intros A nt ls vals H. induction H; simpl; auto. Qed.

Lemma print_then_read : forall (O : NumOps) (str : num O -> text) (tofloat : text -> option (num O)) (s s' : series (num_series O)) rest,
  (forall a, word (str a)) -> (forall a, In a (nd_val (se_coeff s)) -> tofloat (str a) = Some a) ->
  nd_reachable (sdflt (num_series O)) (se_coeff s) -> nd_reachable (sdflt (num_series O)) (se_coeff s') -> dsis_volume s' = dsis_volume s ->
  exists t, py_print_coeff str s = Ok t /\
    py_read_coeff tofloat (s', t ++ rest) = RRet (with_values (S := num_series O) s' (nd_val (se_coeff s)), rest) PyDone.
Proof.
  intros O str tofloat s s' rest Hw Hf Hr Hr' Hvol. destruct (print_same str s Hr) as (t & E & E'). exists t. split; [exact E|].
  destruct (print_coeff_table (num_series O) str s Hr) as (t0 & E0 & T). rewrite E' in E0. injection E0 as <-.
  destruct (table_lines _ str _ _ _ _ Hw T) as (ls & -> & HF). apply read_all.
  - exact Hr'.
  - remember (nd_val (se_coeff s)) as vals eqn:Ev. clear Ev T E E'. revert Hf. induction HF as [|l a ls vals Hl HF IH]; intros Hf; constructor.
    + exists (str a). split; [exact Hl|apply Hf; left; reflexivity].
    + apply IH. intros b Hb. apply Hf. right. exact Hb.
  - rewrite (table_size _ _ _ _ HF). rewrite Hvol. apply (nd_wf_length _ _ (nd_reachable_wf _ _ _ Hr)).
Qed.
