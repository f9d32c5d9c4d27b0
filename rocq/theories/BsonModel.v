(** Model of the BSON codec: bson_code.go, bson_parse.go. *)
From Verif Require Import Base Values.

(** ** Element types (bson_code.go:5-27) *)
Definition BSON_Double := 1.     Definition BSON_String := 2.
Definition BSON_EmbeddedDocument := 3. Definition BSON_Array := 4.
Definition BSON_Binary := 5.     Definition BSON_ObjectID := 7.
Definition BSON_Boolean := 8.    Definition BSON_DateTime := 9.
Definition BSON_Null := 10.      Definition BSON_Int32 := 16.
Definition BSON_Timestamp := 17. Definition BSON_Int64 := 18.
Definition BSON_Decimal128 := 19.

(** [binary.LittleEndian.Uint32(b[:4])], [Uint64(b[:8])] and [b[:n]]: panic when short
    (slice capacity is taken equal to its length). *)
Definition take (n : nat) (b : bytes) : res bytes :=
  if (n <=? length b)%nat then Ok (firstn n b) else Panic.
Definition le32 (b : bytes) : res Z := do x <- take 4 b; Ok (le_val x).
Definition le64 (b : bytes) : res Z := do x <- take 8 b; Ok (le_val x).

(** [time.Date(1970,...).Add(time.Duration(u) * time.Millisecond)] (bson_parse.go:224-225):
    the product wraps around in int64 nanoseconds. *)
Definition bson_instant (u : Z) : Z * Z :=
  let ns := to_i64 (u * 1000000) in (ns / 1000000000, ns mod 1000000000).

(** [parseValue] (bson_parse.go:158-255) on an element cell whose type is VT_NULL.
    Result: the third component [parseIndex] (what the callers add) and the value.
    [SetBinary] on a VT_ExBinary cell without content resets it to VT_Binary and clears
    ExtType (bin_value.go:67-72), so generic binaries become [VBinary 0 (subtype :: data)]. *)
Definition bson_value (E : env) (btype : Z) (b : bytes) : res (Z * value) :=
  if btype =? BSON_Double then do u <- le64 b; Ok (8, VDouble u)
  else if btype =? BSON_String then
    do n <- le32 b;
    if n <=? 0 then Panic                                    (* b[4:3], line 174 *)
    else do s <- take (Z.to_nat (3 + n)) b; Ok (4 + n, VString (skipn 4 s))
  else if btype =? BSON_Binary then
    do n <- le32 b;
    match skipn 4 b with
    | [] => Panic                                            (* b[0], line 184 *)
    | (sub :: _) as b1 =>
        if sub =? 2 then
          if (length b1 <? 5)%nat then Panic else            (* b[5:], line 187 *)
          let b2 := skipn 5 b1 in
          do n <- le32 b2;
          if (length b2 <? 9)%nat then Panic else            (* b[9:], line 191 *)
          let b3 := skipn 9 b2 in
          if zlen b3 <? n then Err ErrInvalidBSON
          else do x <- take (Z.to_nat n) b3; Ok (9 + n, VBinary 0 x)
        else do x <- take (Z.to_nat (n + 1)) b1; Ok (4 + (n + 1), VBinary 0 x)
    end
  else if btype =? BSON_ObjectID then do x <- take 12 b; Ok (12, VBinary BSON_ObjectID x)
  else if btype =? BSON_Boolean then
    match b with [] => Panic | x :: _ => Ok (1, if x =? 1 then VTrue else VFalse) end
  else if btype =? BSON_DateTime then
    do u <- le64 b; Ok (8, VDateTime (x_delphi E (bson_instant u)))
  else if btype =? BSON_Int32 then do u <- le32 b; Ok (4, VInt 0 u)
  else if btype =? BSON_Timestamp then do u <- le64 b; Ok (8, VInt BSON_Timestamp (to_i64 u))
  else if btype =? BSON_Int64 then do u <- le64 b; Ok (8, VInt 0 (to_i64 u))
  else if btype =? BSON_Decimal128 then do x <- take 16 b; Ok (16, VBinary BSON_Decimal128 x)
  else Ok (0, VNull).

(** Which kind of cell the callers ask for: VT_Object, VT_Array or VT_NULL. *)
Inductive bkind := KObj | KArr | KNull.
Definition empty_of (k : bkind) : value :=
  match k with KObj => VObject false [] | KArr => VArray [] | KNull => VNull end.
Definition same_kind (k : bkind) (v : value) : bool :=
  match k, v with
  | KObj, VObject _ _ | KArr, VArray _ | KNull, VNull => true
  | _, _ => false
  end.
(** Re-using an existing cell: kept when it already has the requested type, else
    [Reset] to it (dxvalue.go:1142, 1228). *)
Definition reuse (k : bkind) (v : value) : value := if same_kind k v then v else empty_of k.

(** [SetKeyCached]/[SetIndexCached] (dxvalue.go:1126-1151, 1217-1241) seen as "the cell to
    fill" and "store it back": cells made by NewValueFromBson are never the shared
    constants.  [arr] selects the array version; [idx] is the parsed index. *)
Definition cell_at (E : env) (arr : bool) (doc : value) (key : bytes) (idx : Z) (k : bkind) : value :=
  match doc with
  | VObject u kvs =>
      match index_by_name E u kvs key with
      | (Some i, (_, kvs')) =>
          match nth_error kvs' i with Some (_, old) => reuse k old | None => empty_of k end
      | (None, _) => empty_of k
      end
  | VArray l =>
      if (0 <=? idx) && (idx <? zlen l) then
        match nth_error l (Z.to_nat idx) with Some old => reuse k old | None => empty_of k end
      else empty_of k
  | _ => empty_of k
  end.
Definition store_at (E : env) (doc : value) (key : bytes) (idx : Z) (x : value) : value :=
  match doc with
  | VObject _ _ => set_key_value E doc key x
  | VArray l =>
      if (0 <=? idx) && (idx <? zlen l) then VArray (set_nth (Z.to_nat idx) x l)
      else VArray (l ++ [x])
  | _ => doc
  end.

(** [parseBsonDocument] (bson_parse.go:24-88) and [parseBsonArray] (91-156).  The two differ
    only in the length check at the start and in the key being an array index
    ([arr = true]).  Result: docLen and the filled value (the error results carry no
    index, it is not visible to callers).  [bs_loop] is the for loop at [parseIndex = idx]. *)
Fixpoint bs_doc (E : env) (fuel : nat) (arr : bool) (b : bytes) (doc : value) {struct fuel}
  : res (Z * value) :=
  match fuel with
  | O => OutOfFuel
  | S f =>
    if negb arr && (zlen b <=? 4) then Err ErrBadBSONDocLen
    else
      do docLen <- le32 b;
      if zlen b <? docLen then Err ErrBadBSONDocLen
      else do v <- bs_loop E f arr b docLen 4 doc; Ok (docLen, v)
  end
with bs_loop (E : env) (fuel : nat) (arr : bool) (b : bytes) (docLen idx : Z) (doc : value)
  {struct fuel} : res value :=
  match fuel with
  | O => OutOfFuel
  | S f =>
    if docLen <=? idx then Ok doc
    else
      match skipn (Z.to_nat idx) b with
      | [] => Panic                                          (* b[parseIndex], line 40 *)
      | btype :: b1 =>
        match index_byte b1 0 with
        | None => Err ErrInvalidBSON
        | Some ke =>
          let key := firstn ke b1 in
          let b2 := skipn (S ke) b1 in
          let ai := if arr then x_str2int E key (-1) else 0 in
          if arr && (ai =? -1) then Err ErrInvalidArrayBsonIndex
          else
            do (n, x) <-
              (if btype =? BSON_Array then bs_doc E f true b2 (cell_at E arr doc key ai KArr)
               else if btype =? BSON_EmbeddedDocument
                    then bs_doc E f false b2 (cell_at E arr doc key ai KObj)
               else bson_value E btype b2);
            let doc' := store_at E doc key ai x in
            let idx' := idx + 1 + Z.of_nat ke + 1 + n in
            if (idx' =? docLen - 1) &&
               match nth_error b (Z.to_nat idx') with Some 0 => true | _ => false end
            then Ok doc'
            else bs_loop E f arr b docLen idx' doc'
        end
      end
  end.

Definition bs_fuel (b : bytes) : nat := 2 * length b + 3.

(** [NewValueFromBson] (bson_parse.go:257-270), without cache. *)
Definition NewValueFromBson (E : env) (b : bytes) : res value :=
  do (_, v) <- bs_doc E (bs_fuel b) false b (VObject false []); Ok v.

(** ** Encoder *)
(** [binary.LittleEndian.PutUint32(dst[i:],n)]. *)
Definition put32_at (dst : bytes) (i : Z) (n : Z) : bytes :=
  firstn (Z.to_nat i) dst ++ le_bytes 4 n ++ skipn (Z.to_nat i + 4) dst.

(** [putLittI32], [putLittI64] (bson_parse.go:355-367). *)
Definition putLittI32 (n : Z) (dst : bytes) : bytes := dst ++ le_bytes 4 n.
Definition putLittI64 (n : Z) (dst : bytes) : bytes := dst ++ le_bytes 8 n.

Definition i32_fits (n : Z) : bool := (- 2^31 <=? n) && (n <=? 2^31 - 1).

(** [v.GoTime().Sub(epoch)/time.Millisecond] (bson_parse.go:395): [Sub] saturates, the
    division truncates towards zero. *)
Definition unix_millis (t : Z * Z) : Z :=
  let ns := fst t * 1000000000 + snd t in
  let ns := if ns <? - 2^63 then - 2^63 else if 2^63 - 1 <? ns then 2^63 - 1 else ns in
  Z.quot ns 1000000.

(** [writeBsonElementType] (bson_parse.go:432-479); NaN/Inf write nothing. *)
Definition writeBsonElementType (v : value) (dst : bytes) : bytes :=
  match v with
  | VNilP => dst ++ [BSON_Null]
  | VObject _ _ => dst ++ [BSON_EmbeddedDocument]
  | VArray _ => dst ++ [BSON_Array]
  | VString _ | VRawString _ => dst ++ [BSON_String]
  | VInt ext n =>
      if ext =? BSON_Timestamp then dst ++ [BSON_Timestamp]
      else if i32_fits n then dst ++ [BSON_Int32] else dst ++ [BSON_Int64]
  | VFloat _ | VDouble _ => dst ++ [BSON_Double]
  | VDateTime _ => dst ++ [BSON_DateTime]
  | VBinary ext _ | VExBinary ext _ =>
      if negb (ext =? 0) then dst ++ [ext] else dst ++ [BSON_Binary]
  | VNull => dst ++ [BSON_Null]
  | VTrue | VFalse => dst ++ [BSON_Boolean]
  | VNan | VInf => dst
  end.

(** [writeSimpleBsonValue] (bson_parse.go:369-430).  [v.String()] of a raw string
    unescapes it (dxvalue.go:750-753). *)
Definition writeSimpleBsonValue (E : env) (v : value) (dst : bytes) : res bytes :=
  let str s := Ok (putLittI32 (zlen s + 1) dst ++ s ++ [0]) in
  match v with
  | VString s => str s
  | VRawString s => str (x_unescape E s)
  | VInt ext n =>
      if ext =? BSON_Timestamp then Ok (dst ++ le_bytes 8 n)
      else if i32_fits n then Ok (putLittI32 n dst) else Ok (putLittI64 n dst)
  | VFloat raw => Ok (putLittI64 raw dst)
  | VDouble bits => Ok (putLittI64 bits dst)
  | VDateTime bits => Ok (putLittI64 (unix_millis (x_totime E bits)) dst)
  | VBinary ext b =>
      if ext =? BSON_ObjectID then do x <- take 12 b; Ok (dst ++ x)
      else if ext =? BSON_Decimal128 then do x <- take 16 b; Ok (dst ++ x)
      else Ok (putLittI32 (zlen b) dst ++ [0] ++ b)
  | VExBinary ext b =>
      if ext =? BSON_Binary then Ok (putLittI32 (zlen b - 1) dst ++ b)
      else Ok (putLittI32 (zlen b) dst ++ [0] ++ b)
  | VTrue => Ok (dst ++ [1])
  | VFalse => Ok (dst ++ [0])
  | _ => Ok dst
  end.

(** [ToBson] (dxvalue.go:394-403) = [writeObjBsonValue] (bson_parse.go:284-320) /
    [writeArrayBsonValue] (322-353) / [writeSimpleBsonValue].  The destination is threaded
    through and the length is patched in at the end, as in the code. *)
Fixpoint ToBson (E : env) (v : value) (dst : bytes) {struct v} : res bytes :=
  match v with
  | VObject u kvs =>
      do d <- (fix go (kvs : list (bytes * value)) (dst : bytes) : res bytes :=
         match kvs with
         | [] => Ok dst
         | (k, x) :: r =>
             let k := if u then k else x_unescape E k in
             let dst := writeBsonElementType x dst ++ k ++ [0] in
             do dst <- match x with VNilP => Ok dst | _ => ToBson E x dst end;
             go r dst
         end) kvs (dst ++ [0; 0; 0; 0]);
      let d := d ++ [0] in
      Ok (put32_at d (zlen dst) (zlen d - zlen dst))
  | VArray l =>
      do d <- (fix go (i : Z) (l : list value) (dst : bytes) : res bytes :=
         match l with
         | [] => Ok dst
         | x :: r =>
             let dst := writeBsonElementType x dst ++ fmt_int i ++ [0] in
             do dst <- match x with VNilP => Ok dst | _ => ToBson E x dst end;
             go (i + 1) r dst
         end) 0 l (dst ++ [0; 0; 0; 0]);
      let d := d ++ [0] in
      Ok (put32_at d (zlen dst) (zlen d - zlen dst))
  | _ => writeSimpleBsonValue E v dst
  end.

(** [Value2Bson] (bson_parse.go:273-282). *)
Definition Value2Bson (E : env) (v : value) (dst : bytes) : res bytes :=
  match v with
  | VObject _ _ | VArray _ => ToBson E v dst
  | VNilP => Panic                                           (* v.DataType *)
  | _ => Err ErrBsonType
  end.
