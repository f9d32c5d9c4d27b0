(** Model of the methods that only pass their arguments on: getters by name, and the encoders as methods.
    [int] has 64 bits. *)
From Verif Require Import Base Values HeapModel GetModel JsonModel MsgPackModel.

Section Named.
Variable E : env.
Variable T : tenv.
(** [Find] (dxvalue.go:359-361). *)
Definition Find (s : st) (l : nat) (key : bytes) : ptr * st := ValueByName E s l key.
(** [AsString] ... [AsDateTime] (dxvalue.go:760-786), [AsDuration] (1073-1075). *)
Definition AsString (s : st) (p : ptr) (name : bytes) (def : bytes) : bytes * st := StringByPath E s p def [name].
Definition AsBool (s : st) (p : ptr) (name : bytes) (def : bool) : bool * st := BoolByPath E s p def [name].
Definition AsInt (s : st) (p : ptr) (name : bytes) (def : Z) : Z * st := IntByPath E s p def [name].
Definition AsInt64 (s : st) (p : ptr) (name : bytes) (def : Z) : Z * st := IntByPath E s p def [name].
Definition AsFloat (s : st) (p : ptr) (name : bytes) (def : Z) : Z * st := FloatByPath E T s p def [name].
Definition AsDouble (s : st) (p : ptr) (name : bytes) (def : Z) : Z * st := DoubleByPath E s p def [name].
Definition AsDateTime (s : st) (p : ptr) (name : bytes) (def : Z) : Z * st := DateTimeByPath E T s p def [name].
Definition AsDuration (s : st) (p : ptr) (def : Z) (name : bytes) : Z * st := DurationByPath E T s p def [name].
(** [StringByName] ... [DoubleByName] (dxvalue.go:363-381), [TimeByName] (531-533), [DurationByName] (1069-1071). *)
Definition StringByName (s : st) (p : ptr) (key : bytes) (def : bytes) : bytes * st := AsString s p key def.
Definition IntByName (s : st) (p : ptr) (key : bytes) (def : Z) : Z * st := AsInt s p key def.
Definition BoolByName (s : st) (p : ptr) (key : bytes) (def : bool) : bool * st := AsBool s p key def.
Definition FloatByName (s : st) (p : ptr) (key : bytes) (def : Z) : Z * st := AsFloat s p key def.
Definition DoubleByName (s : st) (p : ptr) (key : bytes) (def : Z) : Z * st := AsDouble s p key def.
Definition TimeByName (s : st) (p : ptr) (key : bytes) (def : option (Z * Z)) : option (Z * Z) * st := GoTimeByPath E T s p def [key].
Definition DurationByName (s : st) (p : ptr) (def : Z) (key : bytes) : Z * st := DurationByPath E T s p def [key].
(** [ToJson] (dxvalue.go:383-388), [ToMsgPack] (390-392), on trees. *)
Definition ToJson (format : bool) (style : escape_style) (escDate : bool) (v : value) (dst : bytes) : res bytes :=
  if format then Value2FormatJson E style escDate v dst else Value2Json E style escDate v dst.
Definition ToMsgPack (v : value) (dst : bytes) : bytes := Value2MsgPack E v dst.
End Named.
