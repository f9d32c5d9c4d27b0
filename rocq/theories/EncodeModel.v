(** The three encoders on memory: they walk the cells, and on the way unescape keys and raw strings
    in place.  Scalars are written as in the tree models.  Containers are re-read at every step of
    their loop, as the code does. *)
From Coq Require Import String.
From Verif Require Import Base Values MsgPackModel BsonModel JsonModel HeapModel.

(** The scalar in a cell; of a container only its kind. *)
Definition leaf (c : cell) : value :=
  match c_dt c with
  | TObject => VObject (c_unesc c) []
  | TArray => VArray []
  | TString => VString (c_str c)
  | TRaw => VRawString (c_str c)
  | TInt => VInt (c_ext c) (to_i64 (c_sv c))
  | TFloat => VFloat (c_sv c)
  | TDouble => VDouble (c_sv c)
  | TDateTime => VDateTime (c_sv c)
  | TBinary => VBinary (c_ext c) (c_bin c)
  | TExBinary => VExBinary (c_ext c) (c_bin c)
  | TNull => VNull
  | TTrue => VTrue
  | TFalse => VFalse
  | TNan => VNan
  | TInf => VInf
  end.
Definition leaf_at (s : st) (p : ptr) : value := match p with Some l => leaf (hp s l) | None => VNilP end.

Section Encode.
Variable E : env.

(** [Value2MsgPack] (msgpackparse.go:511-598): changes no cell. *)
Fixpoint h_Value2MsgPack (fuel : nat) (s : st) (p : ptr) (dst : bytes) : res bytes :=
  match fuel with
  | O => OutOfFuel
  | S f =>
      match p with
      | None => Ok (dst ++ [CodeNil])
      | Some l =>
          match c_dt (hp s l) with
          | TObject => mp_kvs f s (c_kvs (hp s l)) (writeMapCode (zlen (c_kvs (hp s l))) dst)
          | TArray => mp_arr f s (c_arr (hp s l)) (writeArrayCode (zlen (c_arr (hp s l))) dst)
          | _ => Ok (Value2MsgPack E (leaf (hp s l)) dst)
          end
      end
  end
with mp_kvs (fuel : nat) (s : st) (l : list (bytes * ptr)) (dst : bytes) : res bytes :=
  match fuel with
  | O => OutOfFuel
  | S f =>
      match l with
      | [] => Ok dst
      | (k, x) :: r =>
          do d <- h_Value2MsgPack f s x (writeStrCode (zlen k) dst ++ k);
          mp_kvs f s r d
      end
  end
with mp_arr (fuel : nat) (s : st) (l : list ptr) (dst : bytes) : res bytes :=
  match fuel with
  | O => OutOfFuel
  | S f =>
      match l with
      | [] => Ok dst
      | x :: r => do d <- h_Value2MsgPack f s x dst; mp_arr f s r d
      end
  end.

(** [writeObjBsonValue], [writeArrayBsonValue], [writeSimpleBsonValue] (bson_parse.go:284-430): the
    keys of every object and the raw strings met are unescaped in place. *)
Fixpoint h_ToBson (fuel : nat) (s : st) (l : nat) (dst : bytes) : res (bytes * st) :=
  match fuel with
  | O => OutOfFuel
  | S f =>
      match c_dt (hp s l) with
      | TObject =>
          do (d, s1) <- bson_kvs f (set_cell s l (unescape_cell E (hp s l))) l O (dst ++ [0; 0; 0; 0]);
          let d := d ++ [0] in
          Ok (put32_at d (zlen dst) (zlen d - zlen dst), s1)
      | TArray =>
          do (d, s1) <- bson_arr f s l O (dst ++ [0; 0; 0; 0]);
          let d := d ++ [0] in
          Ok (put32_at d (zlen dst) (zlen d - zlen dst), s1)
      | TString | TRaw =>
          let (str, c) := StringOf E (hp s l) in
          Ok (putLittI32 (zlen str + 1) dst ++ str ++ [0], set_cell s l c)
      | _ => do d <- writeSimpleBsonValue E (leaf (hp s l)) dst; Ok (d, s)
      end
  end
with bson_kvs (fuel : nat) (s : st) (l i : nat) (dst : bytes) : res (bytes * st) :=
  match fuel with
  | O => OutOfFuel
  | S f =>
      match nth_error (c_kvs (hp s l)) i with
      | None => Ok (dst, s)
      | Some (k, x) =>
          let dst := writeBsonElementType (leaf_at s x) dst ++ k ++ [0] in
          do (d, s1) <- match x with None => Ok (dst, s) | Some m => h_ToBson f s m dst end;
          bson_kvs f s1 l (S i) d
      end
  end
with bson_arr (fuel : nat) (s : st) (l i : nat) (dst : bytes) : res (bytes * st) :=
  match fuel with
  | O => OutOfFuel
  | S f =>
      match nth_error (c_arr (hp s l)) i with
      | None => Ok (dst, s)
      | Some x =>
          let dst := writeBsonElementType (leaf_at s x) dst ++ fmt_int (Z.of_nat i) ++ [0] in
          do (d, s1) <- match x with None => Ok (dst, s) | Some m => h_ToBson f s m dst end;
          bson_arr f s1 l (S i) d
      end
  end.
(** [Value2Bson] (bson_parse.go:273-282). *)
Definition h_Value2Bson (fuel : nat) (s : st) (p : ptr) (dst : bytes) : res (bytes * st) :=
  match p with
  | None => Panic
  | Some l =>
      match c_dt (hp s l) with
      | TObject | TArray => h_ToBson fuel s l dst
      | _ => Err ErrBsonType
      end
  end.

(** [Value2Json] (jsonparse.go:646-729) and, with [fmt], [formatValue] (735-839).  Without escaping
    the keys of an object are unescaped in place when its first pair is written. *)
Section Json.
Variable style : escape_style.
Variable escDate fmt : bool.
Definition j_sep (i : nat) : bytes := match i with O => [] | _ => if fmt then [44; 13; 10] else [44] end.
Definition j_pre (level : nat) : bytes := if fmt then indent (S level) else [].
Definition j_open : bytes := if fmt then [13; 10] else [].
Definition j_close (level : nat) : bytes := if fmt then [13; 10] ++ indent level else [].
Fixpoint h_json (fuel : nat) (s : st) (level : nat) (p : ptr) (dst : bytes) : res (bytes * st) :=
  match fuel with
  | O => OutOfFuel
  | S f =>
      match p with
      | None => Panic
      | Some l =>
          match c_dt (hp s l) with
          | TObject =>
              do (d, s1) <- json_kvs f s level l O (dst ++ [123] ++ j_open);
              Ok (d ++ j_close level ++ [125], s1)
          | TArray =>
              do (d, s1) <- json_arr f s level l O (dst ++ [91] ++ j_open);
              Ok (d ++ j_close level ++ [93], s1)
          | _ =>
              do d <- (if fmt then formatValue E style escDate level (leaf (hp s l)) dst
                       else Value2Json E style escDate (leaf (hp s l)) dst);
              Ok (d, s)
          end
      end
  end
with json_kvs (fuel : nat) (s : st) (level l i : nat) (dst : bytes) : res (bytes * st) :=
  match fuel with
  | O => OutOfFuel
  | S f =>
      match nth_error (c_kvs (hp s l)) i with
      | None => Ok (dst, s)
      | Some _ =>
          let s0 := match style with
                    | JSE_NoEscape => if c_unesc (hp s l) then s else set_cell s l (unescape_cell E (hp s l))
                    | _ => s
                    end in
          match nth_error (c_kvs (hp s0 l)) i with
          | None => Panic
          | Some (k, x) =>
              let text := match style with
                          | JSE_NoEscape => k
                          | _ => if c_unesc (hp s0 l) then x_escape E (escape_all style) k else k
                          end in
              do (d, s1) <- h_json f s0 (S level) x (dst ++ j_sep i ++ j_pre level ++ [34] ++ text ++ [34; 58]);
              json_kvs f s1 level l (S i) d
          end
      end
  end
with json_arr (fuel : nat) (s : st) (level l i : nat) (dst : bytes) : res (bytes * st) :=
  match fuel with
  | O => OutOfFuel
  | S f =>
      match nth_error (c_arr (hp s l)) i with
      | None => Ok (dst, s)
      | Some x =>
          let dst := dst ++ j_sep i ++ j_pre level in
          do (d, s1) <- match x with None => Ok (dst ++ bs "null", s) | Some _ => h_json f s (S level) x dst end;
          json_arr f s1 level l (S i) d
      end
  end.
End Json.
Definition h_Value2Json (style : escape_style) (escDate : bool) (fuel : nat) (s : st) (p : ptr) (dst : bytes) : res (bytes * st) :=
  h_json style escDate false fuel s O p dst.
(** [Value2FormatJson] (jsonparse.go:731-733). *)
Definition h_Value2FormatJson (style : escape_style) (escDate : bool) (fuel : nat) (s : st) (p : ptr) (dst : bytes) : res (bytes * st) :=
  h_json style escDate true fuel s O p dst.
End Encode.
