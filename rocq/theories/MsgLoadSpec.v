(** What decoding into memory is compared with. *)
From Verif Require Import Base Values HeapModel HeapSpec.

(** A float32 is stored in the lower half of the 8 bytes of a cell; the upper half is whatever the
    cell held before.  [low] drops the upper halves. *)
Fixpoint low (v : value) : value :=
  match v with
  | VFloat raw => VFloat (raw mod 2^32)
  | VObject u kvs => VObject u (map (fun kv => (fst kv, low (snd kv))) kvs)
  | VArray l => VArray (map low l)
  | _ => v
  end.
(** The graph under [p] reads as [v]. *)
Definition shows (h : nat -> cell) (p : ptr) (v : value) : Prop := exists w, rep h p w /\ low w = v.

(** When loading into a value agrees with decoding anew. *)
Definition load_agrees (cl : cell) (v : value) : Prop :=
  match v with
  | VInt _ _ => c_dt cl = TInt -> c_ext cl = 0
  | VFloat _ | VTrue | VFalse | VNull => True
  | VDouble _ => c_dt cl <> TDateTime
  | VDateTime _ => c_dt cl = TDateTime
  | VString _ => c_dt cl = TString
  | VBinary _ _ => c_dt cl = TBinary /\ c_ext cl = 0
  | VExBinary _ _ => c_dt cl = TExBinary /\ c_ext cl = 0
  | VArray [] => c_dt cl = TArray
  | VArray _ => True
  | VObject _ [] => c_dt cl = TObject
  | VObject _ _ => c_dt cl <> TArray
  | _ => False
  end.
(** A non-empty map loaded into an array: treated apart, as its keys may be read as indices. *)
Definition map_into_array (cl : cell) (v : value) : Prop :=
  c_dt cl = TArray /\ exists u kvs, v = VObject u kvs /\ kvs <> [].

(** The same with arrays as receivers: there a map must begin with a key that is no number. *)
Definition load_exact (E : env) (cl : cell) (v : value) : Prop :=
  match v with
  | VObject _ ((k, _) :: _) => c_dt cl = TArray -> x_str2int E k (-1) = -1
  | _ => load_agrees cl v
  end.
