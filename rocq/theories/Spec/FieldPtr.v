(** Specification vocabulary for pointers to the fields of a body: programs of the C interface, and a machine in which a field is named by its
    body and position and lives as long as the body. *)
From Coq Require Import ZArith List String Bool.
From Verif Require Import Model.Outcome Model.FieldPtr.
Import ListNotations.

Section Programs.
Context {F B : Type} (name : F -> string).

(** What a caller can do, with variables for bodies and for fields; a call may be any that changes and reads the one field. *)
Inductive fop : Type :=
| FNew (k : nat) (fs : list F)
| FRead (k : nat) (fs : list F)
| FFind (j k : nat) (x : string)
| FCall (j : nat) (m : M F B)
| FDeleteBody (k : nat)
| FDeleteField (j : nat).

(** What the caller learns from it. *)
Inductive reply : Type := Done | Value (v : B) | Raised (e : exn).

Definition answered {S : Type} {A : Type} (f : A -> reply) (r : res S A) : outcome (S * reply) :=
  match r with RRet s a => Ok (s, f a) | RThrow s e => Ok (s, Raised e) | RExit => Exit | RUB u => UB u | RNoFuel => NoFuel end.

Fixpoint fprogram {S : Type} (step : fop -> S -> outcome (S * reply)) (os : list fop) (s : S) : outcome (S * list reply) :=
  match os with
  | [] => Ok (s, [])
  | o :: os' => let* r := step o s in let* r' := fprogram step os' (fst r) in Ok (fst r', snd r :: snd r')
  end.

(** The code. *)
Definition fstep (grow : nat -> nat) (o : fop) (s : fstate F) : outcome (fstate F * reply) :=
  match o with
  | FNew k fs => answered (fun _ => Done) (f_new grow k fs s)
  | FRead k fs => answered (fun _ => Done) (f_read grow k fs s)
  | FFind j k x => answered (fun _ => Done) (f_find name j k x s)
  | FCall j m => answered Value (f_call j m s)
  | FDeleteBody k => answered (fun _ => Done) (f_delete_body k s)
  | FDeleteField j => answered (fun _ => Done) (f_delete j s)
  end.
Definition frun (grow : nat -> nat) (nb np : nat) (os : list fop) : outcome (fstate F * list reply) := fprogram (fstep grow) os (f_start nb np).

(** ** The machine without addresses *)

(** The fields of each body made, [None] when it is gone; the body each variable has; the body and position each field variable has. *)
Record ideal : Type := mkI { i_body : list (option (list F)); i_bvar : list (option nat); i_pvar : list (option (nat * nat)) }.

Definition lacks {A : Type} : outcome A := UB UBDangling.
Definition of_body (t : ideal) (a : nat) : outcome (list F) := match nth_error (i_body t) a with Some (Some fs) => Ok fs | _ => lacks end.
Definition var {A : Type} (l : list (option A)) (k : nat) : outcome (option A) := match nth_error l k with Some p => Ok p | None => lacks end.
Definition need {A : Type} (p : option A) : outcome A := match p with Some a => Ok a | None => lacks end.

(** The first field of a name. *)
Fixpoint first_named (x : string) (fs : list F) : option nat :=
  match fs with
  | [] => None
  | f :: fs' => if String.eqb (name f) x then Some O else match first_named x fs' with Some i => Some (S i) | None => None end
  end.

Definition istep (o : fop) (t : ideal) : outcome (ideal * reply) :=
  match o with
  | FNew k fs => let* _ := var (i_bvar t) k in Ok (mkI (i_body t ++ [Some fs]) (lset (i_bvar t) k (Some (List.length (i_body t)))) (i_pvar t), Done)
  | FRead k fs => lacks
  | FFind j k x =>
      let* _ := var (i_pvar t) j in
      let* v := var (i_bvar t) k in
      let* a := need v in
      let* fs := of_body t a in
      match first_named x fs with
      | Some i => Ok (mkI (i_body t) (i_bvar t) (lset (i_pvar t) j (Some (a, i))), Done)
      | None => Ok (t, Raised InvalidArgument)
      end
  | FCall j m =>
      let* v := var (i_pvar t) j in
      let* q := need v in
      let* fs := of_body t (fst q) in
      let* f := need (nth_error fs (snd q)) in
      let put := fun y => mkI (lset (i_body t) (fst q) (Some (lset fs (snd q) y))) (i_bvar t) (i_pvar t) in
      match m f with
      | RRet y v => Ok (put y, Value v)
      | RThrow y e => Ok (put y, Raised e)
      | RExit => Exit
      | RUB u => UB u
      | RNoFuel => NoFuel
      end
  | FDeleteBody k =>
      let* v := var (i_bvar t) k in
      match v with
      | None => Ok (t, Done)
      | Some a => let* _ := of_body t a in Ok (mkI (lset (i_body t) a None) (lset (i_bvar t) k None) (i_pvar t), Done)
      end
  | FDeleteField j => let* v := var (i_pvar t) j in match v with None => Ok (t, Done) | Some _ => lacks end
  end.
Definition irun (nb np : nat) (os : list fop) : outcome (ideal * list reply) := fprogram istep os (mkI [] (repeat None nb) (repeat None np)).

(** The same to the caller: the same replies, or undefined or ended both. *)
Definition same_to_caller {S T : Type} (x : outcome (S * list reply)) (y : outcome (T * list reply)) : Prop :=
  match x, y with
  | Ok (_, r), Ok (_, r') => r = r'
  | UB _, UB _ => True
  | Exit, Exit => True
  | NoFuel, NoFuel => True
  | _, _ => False
  end.

(** No file is read into a body that has been made (the C interface has no function for it). *)
Definition no_second_read (os : list fop) : Prop := Forall (fun o => match o with FRead _ _ => False | _ => True end) os.

(** [o] reassigns neither the field variable [j] nor the body variable [k], and reads no further file. *)
Definition spares (j k : nat) (o : fop) : Prop :=
  match o with
  | FNew k' _ => k' <> k
  | FRead _ _ => False
  | FFind j' _ _ => j' <> j
  | FDeleteBody k' => k' <> k
  | FCall _ _ => True
  | FDeleteField _ => True
  end.
(** [o] does not reassign the field variable [j]. *)
Definition spares_field (j : nat) (o : fop) : Prop :=
  match o with FFind j' _ _ => j' <> j | FRead _ _ => False | _ => True end.
(** Its call, if it is one, does not rename the field. *)
Definition renames_none (o : fop) : Prop :=
  match o with
  | FCall _ m => forall f, match m f with RRet y _ | RThrow y _ => name y = name f | _ => True end
  | _ => True
  end.

(** How the call [m] on field [f] ends, whatever happens around it. *)
Definition ends_as {S : Type} (r : res S B) (m : res F B) : Prop :=
  match m with
  | RRet _ v => exists s, r = RRet s v
  | RThrow _ e => exists s, r = RThrow s e
  | RExit => r = RExit
  | RUB u => r = RUB u
  | RNoFuel => r = RNoFuel
  end.
End Programs.
Arguments fop F B : clear implicits.
Arguments reply B : clear implicits.
Arguments ideal F : clear implicits.

(** The room a vector has after [n] calls of push_back. *)
Fixpoint room_after (grow : nat -> nat) (n : nat) : nat :=
  match n with
  | O => O
  | S n' => if Nat.ltb n' (room_after grow n') then room_after grow n' else grow (room_after grow n')
  end.
(** The common policy: double it. *)
Definition doubling (n : nat) : nat := Nat.max 1 (2 * n).

(** The fields of the body in variable [k]. *)
Definition body_fields {F : Type} (s : fstate F) (k : nat) (fs : list F) : Prop :=
  exists a p b, nth_error (f_bvar s) k = Some (Some a) /\ nth_error (f_body s) a = Some (Some p) /\ nth_error (f_block s) p = Some (Some b) /\ bk_fields b = fs.
