(** [Marshal] and [Unmarshal] of values in memory. *)
From Verif Require Import Base Values JsonModel HeapModel JsonLoadModel EncodeModel.

(** [Marshal] (reflect_parse.go:1078-1087) on a [*DxValue].  Left out: other Go values, which go to
    encoding/json.  The capacity of the buffer does not show. *)
Definition Marshal (E : env) (fuel : nat) (s : st) (p : ptr) : res (bytes * st) :=
  h_Value2Json E JSE_AllEscape true fuel s p [].
(** [Unmarshal] (reflect_parse.go:1089-1098) on a [*DxValue] that is not nil; the same
    is left out. *)
Definition Unmarshal (E : env) (G : nat -> nat) (s : st) (b : bytes) (l : nat) : res (st * option gerr) :=
  h_LoadFromJson E G s l b.

(** The same calls given a [DxValue] instead of a pointer (reflect_parse.go:1080-1081, 1091-1092): they work
    on a copy of the struct.  The copy has its own fields, but the pair list, the element list and the cache
    are shared. *)
Definition copy_of (s : st) (l : nat) : st := mkSt (upd (hp s) (nx s) (hp s l)) (S (nx s)) (cs s) (nc s) (pl s).
Definition MarshalByValue (E : env) (fuel : nat) (s : st) (l : nat) : res (bytes * st) :=
  Marshal E fuel (copy_of s l) (Some (nx s)).
(** What the owner of the shared lists then sees, [c0] being the cell before the call, [c] the cell now and
    [d] the copy now.  [Clear] (dxvalue.go:192-216) empties the slots in use.  Of an object the list of
    pairs, of an array the list of elements is then refilled in place, from the first slot on, until it
    is full: what follows goes to a new list the owner does not see.  The owner keeps its length. *)
Definition overlay {A} (old new : list A) : list A := firstn (List.length old) (new ++ skipn (List.length new) old).
Definition shared_lists (c0 c d : cell) : cell :=
  match c_dt c0 with
  | TObject =>
      let all := overlay (map (fun _ => empty_kv) (c_kvs c0) ++ c_spare c0) (c_kvs d) in
      w_obj c (c_unesc c) (firstn (List.length (c_kvs c0)) all) (skipn (List.length (c_kvs c0)) all)
  | TArray => w_arr c (overlay (map (fun _ => None) (c_arr c0)) (c_arr d))
  | _ => c
  end.
Definition UnmarshalByValue (E : env) (G : nat -> nat) (s : st) (b : bytes) (l : nat) : res (st * option gerr) :=
  do (s1, e) <- h_LoadFromJson E G (copy_of s l) (nx s) b;
  Ok (set_cell s1 l (shared_lists (hp s l) (hp s1 l) (hp s1 (nx s))), e).
