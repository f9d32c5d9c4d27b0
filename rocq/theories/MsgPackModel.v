(** Model of the MessagePack codec: msgpack_codes.go, msgpack_value.go, msgpackparse.go. *)
From Verif Require Import Base Values.

(** ** Codes (msgpack_codes.go:5-85) *)
Definition CodeNil := 192.   Definition CodeFalse := 194. Definition CodeTrue := 195.
Definition CodeBin8 := 196.  Definition CodeBin16 := 197. Definition CodeBin32 := 198.
Definition CodeExt8 := 199.  Definition CodeExt16 := 200. Definition CodeExt32 := 201.
Definition CodeFloat := 202. Definition CodeDouble := 203.
Definition CodeUint8 := 204. Definition CodeUint16 := 205.
Definition CodeUint32 := 206. Definition CodeUint64 := 207.
Definition CodeInt8 := 208.  Definition CodeInt16 := 209.
Definition CodeInt32 := 210. Definition CodeInt64 := 211.
Definition CodeFixExt1 := 212. Definition CodeFixExt2 := 213. Definition CodeFixExt4 := 214.
Definition CodeFixExt8 := 215. Definition CodeFixExt16 := 216.
Definition CodeStr8 := 217. Definition CodeStr16 := 218. Definition CodeStr32 := 219.
Definition CodeArray16 := 220. Definition CodeArray32 := 221.
Definition CodeMap16 := 222. Definition CodeMap32 := 223.

Definition between (lo hi x : Z) : bool := (lo <=? x) && (x <=? hi).

(** msgpack_codes.go:87-121 *)
Definition IsExt (c : Z) := between CodeFixExt1 CodeFixExt16 c || between CodeExt8 CodeExt32 c.
Definition IsTime (c t : Z) :=
  (t =? 255) && ((c =? CodeFixExt4) || (c =? CodeFixExt8) || (c =? CodeExt8)).
Definition IsMap (c : Z) := between 128 143 c || (c =? CodeMap16) || (c =? CodeMap32).
Definition IsFixedNum (c : Z) := (c <=? 127) || (224 <=? c).
Definition IsFixedStr (c : Z) := between 160 191 c.
Definition IsStr (c : Z) := between 160 191 c || between CodeStr8 CodeStr32 c.
Definition IsArray (c : Z) := between 144 159 c || (c =? CodeArray16) || (c =? CodeArray32).
Definition IsBin (c : Z) := between CodeBin8 CodeBin32 c.

(** ** Fixed-width big-endian readers (msgpack_value.go:8-35).
    Simplification: [<<] and [|] of disjoint bytes are written as [*] and [+]. *)
Definition parseUint8 (b : bytes) : res (Z * bytes) :=
  match b with x :: t => Ok (x, t) | _ => Err ErrParseInt end.
Definition parseUint16 (b : bytes) : res (Z * bytes) :=
  match b with b0 :: b1 :: t => Ok (b0 * 2^8 + b1, t) | _ => Err ErrParseInt end.
Definition parseUint32 (b : bytes) : res (Z * bytes) :=
  match b with
  | b0 :: b1 :: b2 :: b3 :: t => Ok (b0 * 2^24 + b1 * 2^16 + b2 * 2^8 + b3, t)
  | _ => Err ErrParseInt
  end.
Definition parseUint64 (b : bytes) : res (Z * bytes) :=
  match b with
  | b0 :: b1 :: b2 :: b3 :: b4 :: b5 :: b6 :: b7 :: t =>
      Ok (b0 * 2^56 + b1 * 2^48 + b2 * 2^40 + b3 * 2^32 + b4 * 2^24 + b5 * 2^16 + b6 * 2^8 + b7, t)
  | _ => Err ErrParseInt
  end.

(** [parseLen] (msgpack_value.go:37-53). [code & 0x1f] is [code mod 32]. *)
Definition parseLen (code : Z) (b : bytes) : res (Z * bytes) :=
  if IsFixedStr code then Ok (code mod 32, b)
  else if (code =? CodeStr8) || (code =? CodeBin8) then parseUint8 b
  else if (code =? CodeStr16) || (code =? CodeBin16) then parseUint16 b
  else if (code =? CodeStr32) || (code =? CodeBin32) then parseUint32 b
  else Err ErrParseObjLen.

(** [parseExtLen] (msgpack_value.go:55-79). *)
Definition parseExtLen (code : Z) (b : bytes) : res (Z * bytes) :=
  if code =? CodeFixExt1 then Ok (1, b)
  else if code =? CodeFixExt2 then Ok (2, b)
  else if code =? CodeFixExt4 then Ok (4, b)
  else if code =? CodeFixExt8 then Ok (8, b)
  else if code =? CodeFixExt16 then Ok (16, b)
  else if code =? CodeExt8 then parseUint8 b
  else if code =? CodeExt16 then parseUint16 b
  else if code =? CodeExt32 then parseUint32 b
  else Err ErrInvalidateCode.

(** [parseMapLen] (msgpack_value.go:81-100). [code & 0x0f] is [code mod 16]. *)
Definition parseMapLen (code : Z) (b : bytes) : res (Z * bytes) :=
  if between 128 143 code then Ok (code mod 16, b)
  else if code =? CodeMap16 then
    match parseUint16 b with Ok r => Ok r | _ => Err ErrParseObjLen end
  else if code =? CodeMap32 then
    match parseUint32 b with Ok r => Ok r | _ => Err ErrParseObjLen end
  else Err ErrInvalidateCode.

(** [parseArrLen] (msgpack_value.go:102-115). *)
Definition parseArrLen (code : Z) (b : bytes) : res (Z * bytes) :=
  if between 144 159 code then Ok (code mod 16, b)
  else if code =? CodeArray16 then parseUint16 b
  else if code =? CodeArray32 then parseUint32 b
  else Err ErrInvalidateCode.

(** [parseRawStringByte] and [parseString] (msgpack_value.go:117-145): same body. *)
Definition parseStr (code : Z) (b : bytes) : res (bytes * bytes) :=
  match parseLen code b with
  | Ok (stlen, b) =>
      if stlen <=? 0 then Ok ([], b)
      else if stlen <=? zlen b
           then Ok (firstn (Z.to_nat stlen) b, skipn (Z.to_nat stlen) b)
           else Err ErrTruncated
  | _ => Err ErrParseObjLen
  end.

(** Go [int8(x)], [int16(x)], [int32(x)] of an unsigned number. *)
Definition s8 (n : Z) := if n <? 2^7 then n else n - 2^8.
Definition s16 (n : Z) := if n <? 2^15 then n else n - 2^16.
Definition s32 (n : Z) := if n <? 2^31 then n else n - 2^32.
Definition s64 (n : Z) := if n <? 2^63 then n else n - 2^64.

(** [time.Unix(sec,nsec)]: normalises nsec into [0,1e9). *)
Definition time_unix (sec nsec : Z) : Z * Z :=
  (sec + nsec / 1000000000, nsec mod 1000000000).

(** [binary.BigEndian.Uint32/Uint64]: panic on a short slice. *)
Definition be32 (b : bytes) : res Z :=
  match parseUint32 b with Ok (n, _) => Ok n | _ => Panic end.
Definition be64 (b : bytes) : res Z :=
  match parseUint64 b with Ok (n, _) => Ok n | _ => Panic end.

(** The [code.IsExt()] case (msgpackparse.go:286-326). Slice expressions that go
    past the end of the message are panics (capacity taken equal to length). *)
Definition parseExt (E : env) (code : Z) (b : bytes) : res (value * bytes) :=
  do (exlen, b) <- parseExtLen code b;
  if zlen b <? exlen then Err ErrTruncated
  else if zlen b <? exlen + 1 then Panic                      (* b[exlen+1:], line 296 *)
  else
    let tail := skipn (Z.to_nat (exlen + 1)) b in
    match b with
    | [] => Panic                                             (* b[0], line 297 *)
    | t :: b1 =>
        if IsTime code t then
          if code =? CodeFixExt4 then
            do sec <- be32 b1;
            Ok (VDateTime (x_delphi E (time_unix sec 0)), tail)
          else if code =? CodeFixExt8 then
            do w <- be64 b1;
            Ok (VDateTime (x_delphi E (time_unix (w mod 2^34) (w / 2^34))), tail)
          else
            do nsec <- be32 b1;
            if zlen b1 <? 4 then Panic else                   (* b[5:], line 314 *)
            do sec <- be64 (skipn 4 b1);
            Ok (VDateTime (x_delphi E (time_unix (s64 sec) nsec)), tail)
        else Ok (VExBinary 0 (firstn (Z.to_nat (exlen + 1)) b), tail)
    end.

(** The scalar cases of [parseMsgPackValue] (msgpackparse.go:163-327), i.e. everything
    except arrays and maps.  [b] is the input after the code byte.  Code 0xc1 matches no
    case: the named results are returned as they are (nil, nil, nil), line 327. *)
Definition parseScalar (E : env) (code : Z) (b : bytes) : res (value * bytes) :=
  if IsStr code then do (s, t) <- parseStr code b; Ok (VString s, t)
  else if IsFixedNum code then Ok (VInt 0 (s8 code), b)
  else if code =? CodeUint8 then do (n, t) <- parseUint8 b; Ok (VInt 0 n, t)
  else if code =? CodeInt8 then do (n, t) <- parseUint8 b; Ok (VInt 0 (s8 n), t)
  else if code =? CodeUint16 then do (n, t) <- parseUint16 b; Ok (VInt 0 n, t)
  else if code =? CodeInt16 then do (n, t) <- parseUint16 b; Ok (VInt 0 (s16 n), t)
  else if code =? CodeUint32 then do (n, t) <- parseUint32 b; Ok (VInt 0 n, t)
  else if code =? CodeInt32 then do (n, t) <- parseUint32 b; Ok (VInt 0 (s32 n), t)
  else if (code =? CodeInt64) || (code =? CodeUint64) then
    do (n, t) <- parseUint64 b; Ok (VInt 0 (s64 n), t)
  else if code =? CodeFloat then do (n, t) <- parseUint32 b; Ok (VFloat n, t)
  else if code =? CodeDouble then do (n, t) <- parseUint64 b; Ok (VDouble n, t)
  else if code =? CodeTrue then Ok (VTrue, b)
  else if code =? CodeFalse then Ok (VFalse, b)
  else if code =? CodeNil then Ok (VNull, b)
  else if IsBin code then
    do (blen, b) <- parseLen code b;
    if blen <=? zlen b
    then Ok (VBinary 0 (firstn (Z.to_nat blen) b), skipn (Z.to_nat blen) b)
    else Err ErrTruncated
  else if IsExt code then parseExt E code b
  else Ok (VNilP, []).

(** [parseMsgPackValue] / [parseMsgPackArray] / [parseMsgPackObject]
    (msgpackparse.go:158-183, 113-135, 67-110).  The result value and the remaining
    input.  The order of the cases in the Go switch is string, array, map, numbers...;
    the code ranges are disjoint.  Simplifications: allocation from the cache is not
    visible in trees (it is in CacheModel.v); [sharebinary] only affects aliasing. *)
Fixpoint mp_value (E : env) (fuel : nat) (b : bytes) {struct fuel} : res (value * bytes) :=
  match fuel with
  | O => OutOfFuel
  | S f =>
    match b with
    | [] => Err ErrUnKnownCode                                (* readCode, line 21-26 *)
    | code :: b =>
      if IsStr code then parseScalar E code b
      else if IsArray code then
        do (n, b) <- parseArrLen code b;
        if n =? 0 then Ok (VArray [], b) else mp_array E f n b []
      else if IsMap code then
        do (n, b) <- parseMapLen code b;
        if n =? 0 then Ok (VObject false [], b)
        else match b with
             | [] => Panic                                    (* b[0], line 75 *)
             | c :: _ => if IsStr c then mp_map E f n b (VObject false [])
                         else Err ErrMapKey
             end
      else parseScalar E code b
    end
  end
with mp_array (E : env) (fuel : nat) (n : Z) (b : bytes) (acc : list value) {struct fuel}
  : res (value * bytes) :=
  match fuel with
  | O => OutOfFuel
  | S f =>
    if n <=? 0 then Ok (VArray acc, b)
    else do (v, b) <- mp_value E f b; mp_array E f (n - 1) b (acc ++ [v])
  end
with mp_map (E : env) (fuel : nat) (n : Z) (b : bytes) (acc : value) {struct fuel}
  : res (value * bytes) :=
  match fuel with
  | O => OutOfFuel
  | S f =>
    if n <=? 0 then Ok (acc, b)
    else match b with
         | [] => Err ErrUnKnownCode
         | code :: b =>
             do (k, b) <- parseStr code b;                    (* parseRawStringByte *)
             do (v, b) <- mp_value E f b;
             mp_map E f (n - 1) b (set_key_value E acc k v)
         end
  end.

(** Enough fuel for any input: every call consumes a byte or ends a loop. *)
Definition mp_fuel (b : bytes) : nat := 2 * length b + 3.

(** [parseMsgPackValue] with fuel discharged, and [NewValueFromMsgPack]
    (msgpackparse.go:487-499), which drops the tail. *)
Definition mp_decode (E : env) (b : bytes) : res (value * bytes) := mp_value E (mp_fuel b) b.
Definition NewValueFromMsgPack (E : env) (b : bytes) : res value :=
  do (v, _) <- mp_decode E b; Ok v.

(** ** Writers (msgpack_value.go:169-271). Each appends to [dst]. *)
(** [writeExtCode] (msgpack_value.go:169-190): after the fixext switch the code
    falls through to the length-prefixed header as well. *)
Definition writeExtCode (n : Z) (dst : bytes) : bytes :=
  let dst :=
    if n =? 1 then dst ++ [CodeFixExt1] else if n =? 2 then dst ++ [CodeFixExt2]
    else if n =? 4 then dst ++ [CodeFixExt4] else if n =? 8 then dst ++ [CodeFixExt8]
    else if n =? 16 then dst ++ [CodeFixExt16] else dst in
  if n <? 256 then dst ++ [CodeExt8; byte_of n]
  else if n <? 65536 then dst ++ [CodeExt16; byte_of (n / 2^8); byte_of n]
  else dst ++ [CodeExt32; byte_of (n / 2^24); byte_of (n / 2^16); byte_of (n / 2^8); byte_of n].

Definition writeBinCode (n : Z) (dst : bytes) : bytes :=
  if n <? 256 then dst ++ [CodeBin8; byte_of n]
  else if n <? 65536 then dst ++ [CodeBin16; byte_of (n / 2^8); byte_of n]
  else dst ++ [CodeBin32; byte_of (n / 2^24); byte_of (n / 2^16); byte_of (n / 2^8); byte_of n].

(** [byte(CodeFixedStrLow) | byte(strlen)] with strlen < 32 is 160 + strlen. *)
Definition writeStrCode (n : Z) (dst : bytes) : bytes :=
  if n <? 32 then dst ++ [160 + n]
  else if n <? 256 then dst ++ [CodeStr8; byte_of n]
  else if n <? 65536 then dst ++ [CodeStr16; byte_of (n / 2^8); byte_of n]
  else dst ++ [CodeStr32; byte_of (n / 2^24); byte_of (n / 2^16); byte_of (n / 2^8); byte_of n].

Definition writeMapCode (n : Z) (dst : bytes) : bytes :=
  if n <? 16 then dst ++ [128 + n]
  else if n <? 65536 then dst ++ [CodeMap16; byte_of (n / 2^8); byte_of n]
  else dst ++ [CodeMap32; byte_of (n / 2^24); byte_of (n / 2^16); byte_of (n / 2^8); byte_of n].

Definition writeArrayCode (n : Z) (dst : bytes) : bytes :=
  if n <? 16 then dst ++ [144 + n]
  else if n <? 65536 then dst ++ [CodeArray16; byte_of (n / 2^8); byte_of n]
  else dst ++ [CodeArray32; byte_of (n / 2^24); byte_of (n / 2^16); byte_of (n / 2^8); byte_of n].

(** Arithmetic shifts [n >> k] on int64/uint64 are floor divisions by 2^k. *)
Definition bytes8 (n : Z) : bytes :=
  [byte_of (n / 2^56); byte_of (n / 2^48); byte_of (n / 2^40); byte_of (n / 2^32);
   byte_of (n / 2^24); byte_of (n / 2^16); byte_of (n / 2^8); byte_of n].
Definition bytes4 (n : Z) : bytes :=
  [byte_of (n / 2^24); byte_of (n / 2^16); byte_of (n / 2^8); byte_of n].

(** [writeInt] (msgpack_value.go:241-271); [int64(int8(0xe0))] is -32. *)
Definition writeInt (n : Z) (dst : bytes) : bytes :=
  if 0 <=? n then
    if n <=? 127 then dst ++ [byte_of n]
    else if n <=? 255 then dst ++ [CodeUint8; byte_of n]
    else if n <=? 65535 then dst ++ [CodeUint16; byte_of (n / 2^8); byte_of n]
    else if n <=? 4294967295 then dst ++ CodeUint32 :: bytes4 n
    else dst ++ CodeUint64 :: bytes8 n
  else if -32 <=? n then dst ++ [byte_of n]
  else if -128 <=? n then dst ++ [CodeInt8; byte_of n]
  else if -32768 <=? n then dst ++ [CodeInt16; byte_of (n / 2^8); byte_of n]
  else if -2147483648 <=? n then dst ++ CodeInt32 :: bytes4 n
  else dst ++ CodeInt64 :: bytes8 n.

(** The VT_DateTime case of [Value2MsgPack] (msgpackparse.go:536-565). *)
Definition writeTime (t : Z * Z) (dst : bytes) : bytes :=
  let (unix, nsec) := t in
  let secs := to_u64 unix in
  if secs / 2^34 =? 0 then
    let data := nsec * 2^34 + secs in          (* uint64(nsec)<<34 | secs, disjoint bits *)
    if data / 2^32 =? 0                        (* data & 0xffffffff00000000 == 0 *)
    then dst ++ [CodeFixExt4; 255] ++ bytes4 data
    else dst ++ [CodeFixExt8; 255] ++ bytes8 data
  else dst ++ [CodeExt8; 12; 255] ++ bytes4 nsec ++ bytes8 secs.

(** [Value2MsgPack] (msgpackparse.go:511-598). VT_NAN and VT_INF match no case and
    write nothing. *)
Fixpoint Value2MsgPack (E : env) (v : value) (dst : bytes) {struct v} : bytes :=
  match v with
  | VNilP => dst ++ [CodeNil]
  | VObject _ kvs =>
      fold_left (fun dst kv =>
        let k := fst kv in
        Value2MsgPack E (snd kv) (writeStrCode (zlen k) dst ++ k))
      kvs (writeMapCode (zlen kvs) dst)
  | VArray l =>
      fold_left (fun dst x => Value2MsgPack E x dst) l (writeArrayCode (zlen l) dst)
  | VDateTime bits => writeTime (x_totime E bits) dst
  | VExBinary _ b =>
      let blen := match b with [] => 0 | _ :: p => zlen p end in
      writeExtCode blen dst ++ b
  | VBinary _ b => writeBinCode (zlen b) dst ++ b
  | VFloat raw => dst ++ CodeFloat :: bytes4 (raw mod 2^32)
  | VDouble bits => dst ++ CodeDouble :: bytes8 bits
  | VInt _ n => writeInt n dst
  | VString s | VRawString s => writeStrCode (zlen s) dst ++ s
  | VFalse => dst ++ [CodeFalse]
  | VTrue => dst ++ [CodeTrue]
  | VNull => dst ++ [CodeNil]
  | VNan | VInf => dst
  end.
