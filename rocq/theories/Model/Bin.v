(** Model of include/IntegrationTools/datastruc/Bin.hh (class Bin). *)
From Coq Require Import ZArith List Bool.
From Verif Require Import Model.Outcome Model.Num Model.PNDArray.
Import ListNotations.
Local Open Scope Z_scope.

Section BinModel.
Context (O : NumOps) (T : Type) (teqb : T -> T -> bool).

(** Bin.hh 22-28: data members _item, _min, _incr, _N, _max, _indices. *)
Record bin : Type := mkBin {
  bin_item : nd (list T);
  bin_min : list (num O);
  bin_incr : list (num O);
  bin_N : list Z;
  bin_max : list (num O);
  bin_indices : list Z
}.

(** Bin.hh 32: default constructor. *)
Definition bin_empty : bin := mkBin nd_empty [] [] [] [] [].

(** Bin.hh 48-49: [_max\[i\] = _min\[i\] + _incr\[i\]*_N\[i\]] for every i < _min.size(). *)
Fixpoint bin_max_loop (mn inc : list (num O)) (n : list Z) : outcome (list (num O)) :=
  match mn with
  | [] => Ok []
  | a :: mn' =>
      match inc, n with
      | h :: inc', k :: n' =>
          let* r := bin_max_loop mn' inc' n' in
          Ok (nadd O a (nmul O h (nofZ O k)) :: r)
      | _, _ => UB UBOutOfBounds
      end
  end.

(** Bin.hh 42-52: constructor. *)
Definition bin_make (mn inc : list (num O)) (n : list Z) : outcome bin :=
  let* mx := bin_max_loop mn inc n in
  let* it := nd_make [] n in
  Ok (mkBin it mn inc n mx n).

(** Bin.hh 54-57: clear. *)
Definition bin_clear : M bin unit := mput bin_empty.

(** Bin.hh 174-189: indices(coord, term); [n] iterations remain. On the throw at 186 the elements of
    [term] already written keep their new values. *)
Fixpoint bin_indices_loop (n : nat) (coord mn mx inc : list (num O)) (term : list Z) : res (list Z) unit :=
  match n with
  | 0%nat => RRet term tt
  | S n' =>
      match coord, mn, mx with
      | c :: coord', a :: mn', b :: mx' =>
          if nltb O c a || nltb O b c then RThrow term DomainError        (* 185-186 *)
          else
            match inc, term with
            | h :: inc', _ :: term' =>
                match floor_to_int O (ndiv O (nsub O c a) h) with         (* 187 *)
                | Ok k =>
                    match bin_indices_loop n' coord' mn' mx' inc' term' with
                    | RRet t u => RRet (k :: t) u
                    | RThrow t e => RThrow (k :: t) e
                    | RExit => RExit
                    | RUB r => RUB r
                    | RNoFuel => RNoFuel
                    end
                | Throw e => RThrow term e
                | Exit => RExit
                | UB r => RUB r
                | NoFuel => RNoFuel
                end
            | _, _ => RUB UBOutOfBounds
            end
      | _, _, _ => RUB UBOutOfBounds
      end
  end.

(** Bin.hh 174-189: indices for a given output vector [term]; the loop bound is _item.order(). *)
Definition bin_indices_into (b : bin) (coord : list (num O)) (term : list Z) : res (list Z) unit :=
  bin_indices_loop (Z.to_nat (nd_order (bin_item b))) coord (bin_min b) (bin_max b) (bin_incr b) term.

(** [_indices = l] (Bin.hh 28). *)
Definition bin_set_indices (b : bin) (l : list Z) : bin :=
  mkBin (bin_item b) (bin_min b) (bin_incr b) (bin_N b) (bin_max b) l.

(** [_item = it] (Bin.hh 22). *)
Definition bin_set_item (b : bin) (it : nd (list T)) : bin :=
  mkBin it (bin_min b) (bin_incr b) (bin_N b) (bin_max b) (bin_indices b).

(** Bin.hh 72, 81, 156: [indices(coord, _indices)]. *)
Definition bin_find (coord : list (num O)) : M bin unit :=
  fun b => match bin_indices_into b coord (bin_indices b) with
           | RRet t u => RRet (bin_set_indices b t) u
           | RThrow t e => RThrow (bin_set_indices b t) e
           | RExit => RExit
           | RUB r => RUB r
           | RNoFuel => RNoFuel
           end.

(** Bin.hh 73, 127: [_item(_indices).push_back(newitem)]. *)
Definition bin_push (x : T) : M bin unit :=
  do* b := mget in
  do* l := mlift (nd_at (bin_item b) (bin_indices b)) in
  do* it := mlift (nd_put (bin_item b) (bin_indices b) (l ++ [x])) in
  mput (bin_set_item b it).

(** Bin.hh 70-74: add. *)
Definition bin_add (x : T) (coord : list (num O)) : M bin unit :=
  bin_find coord ;;; bin_push x.

(** Bin.hh 79-90: add_once. *)
Definition bin_add_once (x : T) (coord : list (num O)) : M bin unit :=
  bin_find coord ;;;
  do* b := mget in
  do* l := mlift (nd_at (bin_item b) (bin_indices b)) in
  if existsb (fun y => teqb y x) l then mret tt else bin_push x.

(** Bin.hh 131-146: the counter. [n] is order() - i. [Ok None] is the [return] at 137, [Ok (Some cur)] the new
    _indices. The reset loop 143-146 writes index_min into the positions before i. *)
Fixpoint odo_next (n : nat) (lo hi cur : list Z) : outcome (option (list Z)) :=
  match cur, hi with
  | c :: cur', h :: hi' =>
      if c =? h then
        match n with
        | 0%nat => UB UBOutOfBounds
        | 1%nat => Ok None
        | S n' =>
            match lo with
            | l :: lo' =>
                let* r := odo_next n' lo' hi' cur' in
                match r with
                | None => Ok None
                | Some cur'' => Ok (Some (l :: cur''))
                end
            | [] => UB UBOutOfBounds
            end
        end
      else
        let* c' := cint (c + 1) in Ok (Some (c' :: cur'))
  | _, _ => UB UBOutOfBounds
  end.

(** Bin.hh 118-148: the loop of add_range, with a bound on the number of iterations. *)
Fixpoint add_range_loop (fuel : nat) (x : T) (lo hi : list Z) : M bin unit :=
  match fuel with
  | 0%nat => fun _ => RNoFuel
  | S f =>
      bin_push x ;;;
      do* b := mget in
      do* nx := mlift (odo_next (Z.to_nat (nd_order (bin_item b))) lo hi (bin_indices b)) in
      match nx with
      | None => mret tt
      | Some cur => mput (bin_set_indices b cur) ;;; add_range_loop f x lo hi
      end
  end.

(** Bin.hh 103-104: [indices(c, v)] into a fresh local vector of order() zeros. *)
Definition bin_local_indices (coord : list (num O)) : M bin (list Z) :=
  fun b =>
    match bin_indices_into b coord (repeat 0 (Z.to_nat (nd_order (bin_item b)))) with
    | RRet t _ => RRet b t
    | RThrow _ e => RThrow b e
    | RExit => RExit
    | RUB r => RUB r
    | RNoFuel => RNoFuel
    end.

(** Number of index tuples between two corners (0 if some lower index exceeds the upper one);
    used only as the loop bound of add_range. *)
Fixpoint box_count (lo hi : list Z) : nat :=
  match lo, hi with
  | l :: lo', h :: hi' => (Z.to_nat (h - l + 1) * box_count lo' hi')%nat
  | _, _ => 1%nat
  end.

(** Bin.hh 93-152: add_range. The loop bound is the number of tuples in the box; that it is never exhausted
    for ordered corners is part of the theorems. For unordered corners (which make the C++ loop run past the box until it
    leaves the storage) the model's result is [RNoFuel]. *)
Definition bin_add_range (x : T) (cmin cmax : list (num O)) : M bin unit :=
  do* lo := bin_local_indices cmin in
  do* hi := bin_local_indices cmax in
  mmod (fun b => bin_set_indices b lo) ;;;
  add_range_loop (box_count lo hi) x lo hi.

(** Bin.hh 154-158: contents (used as an rvalue). *)
Definition bin_contents (coord : list (num O)) : M bin (list T) :=
  bin_find coord ;;;
  do* b := mget in
  mlift (nd_at (bin_item b) (bin_indices b)).

(** Bin.hh 163-167: the loop of max_size over the linear index. The int conversion of size() is exact below
    2^31 items per bin. *)
Definition bin_max_size (b : bin) : outcome Z :=
  ofold (fun m i =>
           let* l := nd_get (bin_item b) (Z.of_nat i) in
           Ok (if m <? Z.of_nat (length l) then Z.of_nat (length l) else m))
        (seq 0 (Z.to_nat (nd_volume (bin_item b)))) 0.

(** Bin.hh 193-221: max_indices, one component (not called anywhere): like indices, but a coordinate on a
    bin border goes to the lower bin. *)
Definition bin_max_index1 (c a b h : num O) : outcome Z :=
  if nltb O c a || nltb O b c then Throw DomainError
  else
    let q := ndiv O (nsub O c a) h in
    let* k := floor_to_int O q in
    if neqb O (nofZ O k) q then cint (k - 1) else Ok k.

End BinModel.

Arguments bin_item {O T}.
Arguments bin_min {O T}.
Arguments bin_incr {O T}.
Arguments bin_N {O T}.
Arguments bin_max {O T}.
Arguments bin_indices {O T}.
Arguments mkBin {O T}.
Arguments bin_make {O T}.
Arguments bin_empty {O T}.
Arguments bin_clear {O T}.
Arguments bin_indices_loop {O}.
Arguments bin_indices_into {O T}.
Arguments bin_set_indices {O T}.
Arguments bin_set_item {O T}.
Arguments bin_find {O T}.
Arguments bin_push {O T}.
Arguments bin_add {O T}.
Arguments bin_add_once {O T}.
Arguments add_range_loop {O T}.
Arguments bin_local_indices {O T}.
Arguments bin_add_range {O T}.
Arguments bin_contents {O T}.
Arguments bin_max_size {O T}.
Arguments bin_max_loop {O}.
