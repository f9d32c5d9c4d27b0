(** What JSON decoding into memory assumes of the library functions. *)
From Verif Require Import Base Values HeapModel.

(** [StrToIntDef] returns an int64, converting to float32 gives 32 bits. *)
Definition num_env (E : env) : Prop :=
  (forall b d, - 2^63 <= d < 2^63 -> - 2^63 <= x_str2int E b d < 2^63) /\
  (forall x, 0 <= x_f64_to_f32 E x < 2^32).

(** The hidden slots of the pair list hold nothing. *)
Definition no_stale (c : cell) : Prop := Forall (eq empty_kv) (c_spare c).
