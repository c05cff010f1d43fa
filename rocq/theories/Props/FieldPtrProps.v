(** C54: pointers to the fields of a body. *)
From Coq Require Import List String.
From Verif Require Import Model.Outcome Model.FieldPtr Spec.FieldPtr Proofs.FieldPtrP.
Import ListNotations.
Local Open Scope string_scope.
Local Open Scope list_scope.

(** C54. For every program of the C interface, whatever std::vector's growth policy: the caller gets the same replies as from the machine
    in which a field is named by its body and position; the code is undefined where that machine is. *)
Theorem C54_c_interface : forall (F B : Type) (name : F -> string) (grow : nat -> nat) (nb np : nat) (os : list (fop F B)),
  no_second_read os -> same_to_caller (frun name grow nb np os) (irun name nb np os).
Proof. exact @c_interface. Qed.
Print Assumptions C54_c_interface.
Example C54_case_c_interface : no_second_read (ex_os ++ ex_os2) /\
  replies (frun ex_name doubling 2 2 (ex_os ++ ex_os2)) = Some [Done; Done; Value 5; Done; Done; Value 6; Raised InvalidArgument; Done; Raised DomainError].
Proof. exact ex_run. Qed.
Example C54_case_undefined : exists os, no_second_read os /\ frun ex_name doubling 2 2 (ex_os ++ os) = UB UBDangling.
Proof. exact ex_ub. Qed.

(** C54. Finding a field succeeds exactly when the body has one of that name; otherwise it throws and the caller's pointer is as before. *)
Theorem C54_find : forall (F : Type) (name : F -> string) (j k : nat) (x : string) (fs : list F) (s : fstate F),
  body_fields s k fs -> j < List.length (f_pvar s) -> (exists f, In f fs /\ name f = x) -> exists s', f_find name j k x s = RRet s' tt.
Proof. exact @find_known. Qed.
Print Assumptions C54_find.
Theorem C54_find_unknown : forall (F : Type) (name : F -> string) (j k : nat) (x : string) (fs : list F) (s : fstate F),
  body_fields s k fs -> j < List.length (f_pvar s) -> (forall f, In f fs -> name f <> x) -> f_find name j k x s = RThrow s InvalidArgument.
Proof. exact @find_unknown. Qed.
Print Assumptions C54_find_unknown.
Example C54_case_find : exists s : fstate (string * nat), body_fields s 0 [("T", 1); ("c", 6)] /\ 0 < List.length (f_pvar s) /\
  (exists f, In f [("T", 1); ("c", 6)] /\ ex_name f = "c") /\ (forall f, In f [("T", 1); ("c", 6)] -> ex_name f <> "zz").
Proof. exact ex_find. Qed.

(** C54. The pointer found is good through any operations that leave its variable and its body's alone: a call through it is a call on one
    field, which is of the name asked for unless some call renamed it. *)
Theorem C54_alive : forall (F B : Type) (name : F -> string) (grow : nat -> nat) (nb np : nat) (os1 os2 : list (fop F B)) (j k : nat) (x : string) (s1 s1' s2 : fstate F) r1 r2,
  no_second_read os1 -> frun name grow nb np os1 = Ok (s1, r1) -> f_find name j k x s1 = RRet s1' tt ->
  Forall (spares j k) os2 -> fprogram (fstep name grow) os2 s1' = Ok (s2, r2) ->
  exists f, (Forall (renames_none name) os2 -> name f = x) /\ forall m : M F B, ends_as (f_call j m s2) (m f).
Proof. exact @found_lives. Qed.
Print Assumptions C54_alive.
Example C54_case_alive : exists s1 r1 s1' s2 r2, no_second_read ex_os /\ frun ex_name doubling 2 2 ex_os = Ok (s1, r1) /\ f_find ex_name 0 0 "c" s1 = RRet s1' tt /\
  Forall (spares 0 0) ex_os2 /\ Forall (renames_none ex_name) ex_os2 /\ fprogram (fstep ex_name doubling) ex_os2 s1' = Ok (s2, r2).
Proof. exact ex_lives. Qed.

(** C54. Once the body is deleted every call through it is undefined, for good: a new body in the same variable does not revive it. *)
Theorem C54_dead : forall (F B : Type) (name : F -> string) (grow : nat -> nat) (nb np : nat) (os1 os2 os3 : list (fop F B)) (j k : nat) (x : string) (s1 s1' s2 : fstate F) r1 r2,
  no_second_read os1 -> frun name grow nb np os1 = Ok (s1, r1) -> f_find name j k x s1 = RRet s1' tt ->
  Forall (spares j k) os2 -> Forall (spares_field j) os3 -> fprogram (fstep name grow) (os2 ++ FDeleteBody k :: os3) s1' = Ok (s2, r2) ->
  forall m : M F B, f_call j m s2 = RUB UBDangling.
Proof. exact @found_dies. Qed.
Print Assumptions C54_dead.
Example C54_case_dead : exists s1 r1 s1' s2 r2, no_second_read ex_os /\ frun ex_name doubling 2 2 ex_os = Ok (s1, r1) /\ f_find ex_name 0 0 "c" s1 = RRet s1' tt /\
  Forall (spares 0 0) ex_os2 /\ Forall (spares_field (B := nat) 0) [FNew 0 [("c", 9)]] /\
  fprogram (fstep ex_name doubling) ([FFind 1 0 "c"] ++ FDeleteBody (B := nat) 0 :: [FNew 0 [("c", 9)]; FCall 0 ex_bump]) s1' = UB UBDangling /\
  fprogram (fstep ex_name doubling) (ex_os2 ++ FDeleteBody 0 :: [FNew 0 [("c", 9)]]) s1' = Ok (s2, r2).
Proof. exact ex_dies. Qed.

(** C54. PFunction_dsd_delete on a pointer found in a body is undefined at every later time. *)
Theorem C54_delete_field : forall (F B : Type) (name : F -> string) (grow : nat -> nat) (j k : nat) (x : string) (os : list (fop F B)) (s s' s'' : fstate F) r,
  f_find name j k x s = RRet s' tt -> Forall (spares_field j) os -> fprogram (fstep name grow) os s' = Ok (s'', r) -> f_delete j s'' = RUB UBBadDelete.
Proof. exact @delete_field. Qed.
Print Assumptions C54_delete_field.
Example C54_case_delete_field : exists s s' s'' r, f_find ex_name 0 0 "c" s = RRet s' tt /\ Forall (spares_field 0) [FCall 0 ex_bump; FDeleteBody 0] /\
  fprogram (fstep ex_name doubling) [FCall 0 ex_bump; FDeleteBody 0] s' = Ok (s'', r).
Proof. exact ex_delete. Qed.

(** C54. In C++ a further file may be read into a body. From every state of any program (with further reads too), the pointer just found
    survives a further read exactly when the vector has room for the new fields. *)
Theorem C54_second_read : forall (F B : Type) (name : F -> string) (grow : nat -> nat) (nb np : nat) (os : list (fop F B)) (j k : nat) (x : string) (fs fs0 : list F) (s s' s'' : fstate F) r,
  (forall n, n < grow n) -> frun name grow nb np os = Ok (s, r) -> f_find name j k x s = RRet s' tt -> body_fields s k fs0 -> f_read grow k fs s' = RRet s'' tt ->
  body_fields s'' k (fs0 ++ fs) /\
  (List.length fs0 + List.length fs <= room_after grow (List.length fs0) -> exists f, name f = x /\ forall m : M F B, ends_as (f_call j m s'') (m f)) /\
  (room_after grow (List.length fs0) < List.length fs0 + List.length fs -> forall m : M F B, f_call j m s'' = RUB UBDangling).
Proof. exact @second_read. Qed.
Print Assumptions C54_second_read.
Theorem C54_references_stay_valid_refuted : (forall n, n < doubling n) /\
  exists os s r s' s'', frun (B := nat) ex_name doubling 2 2 os = Ok (s, r) /\ f_find ex_name 0 0 "T" s = RRet s' tt /\
    body_fields s 0 [("T", 1)] /\ f_read doubling 0 [("c", 5)] s' = RRet s'' tt /\ room_after doubling 1 < 1 + 1 /\ f_call 0 ex_bump s'' = RUB UBDangling.
Proof. exact ex_second. Qed.
Print Assumptions C54_references_stay_valid_refuted.
Example C54_case_second_read : exists os s r s' s'', frun (B := nat) ex_name doubling 2 2 os = Ok (s, r) /\ f_find ex_name 0 0 "T" s = RRet s' tt /\
    body_fields s 0 [("T", 1); ("c", 5); ("d", 8)] /\ f_read doubling 0 [("e", 4)] s' = RRet s'' tt /\ 3 + 1 <= room_after doubling 3 /\
    exists s3, f_call 0 ex_bump s'' = RRet s3 1.
Proof. exact ex_second_kept. Qed.
