(** The predicates of a MessagePack type byte that the codec itself does not call. *)
From Verif Require Import Base Values MsgPackModel.

(** [IsInt] (msgpack_codes.go:103-105). *)
Definition IsInt (c : Z) := (c <=? 127) || (224 <=? c) || between CodeUint8 CodeUint64 c || between CodeInt8 CodeInt64 c.
(** [getExtcode] (msgpack_value.go:147-167). *)
Definition getExtcode (n : Z) : Z :=
  if n =? 1 then CodeFixExt1 else if n =? 2 then CodeFixExt2 else if n =? 4 then CodeFixExt4
  else if n =? 8 then CodeFixExt8 else if n =? 16 then CodeFixExt16
  else if n <? 256 then CodeExt8 else if n <? 65536 then CodeExt16 else CodeExt32.
