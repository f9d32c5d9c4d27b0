(** Base definitions shared by all models: byte strings, Go results, and the
    record of external functions (code that is not in /repo). *)
From Coq Require Export List ZArith Lia Bool.
From Coq Require Import Ascii String.
Export ListNotations.
Open Scope Z_scope.

(** Go [[]byte] and [string] are both finite byte sequences.  A byte is a [Z];
    [bytes_ok] says that all elements are in 0..255.  Slices are modelled by
    value (the bytes they denote); capacity beyond the length is not modelled
    except in BufferModel.v, where it is what the property is about. *)
Definition bytes := list Z.
Definition byte_ok (z : Z) : Prop := 0 <= z < 256.
Definition bytes_ok (b : bytes) : Prop := Forall byte_ok b.

(** String literals of the Go source as byte lists. *)
Fixpoint bs (s : string) : bytes :=
  match s with
  | EmptyString => []
  | String c s' => Z.of_N (N_of_ascii c) :: bs s'
  end.

Arguments bs s%string_scope.

(** Go [len]. *)
Definition zlen {A} (l : list A) : Z := Z.of_nat (List.length l).

(** Go [==] on strings / [bytes.Compare(..)==0]. *)
Fixpoint beq (a b : bytes) : bool :=
  match a, b with
  | [], [] => true
  | x :: a', y :: b' => (x =? y) && beq a' b'
  | _, _ => false
  end.

(** [bytes.IndexByte(b,c)]: position of the first occurrence. *)
Fixpoint index_byte (b : bytes) (c : Z) : option nat :=
  match b with
  | [] => None
  | x :: b' => if x =? c then Some O else option_map S (index_byte b' c)
  end.

(** [strings.IndexByte(Name,'\\') < 0] *)
Definition no_backslash (s : bytes) : bool :=
  match index_byte s 92 with None => true | Some _ => false end.

(** Go [byte(n)] for an integer [n]: truncation to the low 8 bits. *)
Definition byte_of (n : Z) : Z := n mod 256.

(** Go conversion of an integer to int64 (two's complement wrap-around). *)
Definition to_i64 (n : Z) : Z :=
  let m := n mod 2^64 in if m <? 2^63 then m else m - 2^64.
(** Go conversion to uint64. *)
Definition to_u64 (n : Z) : Z := n mod 2^64.
Definition i64_ok (n : Z) : Prop := - 2^63 <= n < 2^63.
Definition i64_okb (n : Z) : bool := (- 2^63 <=? n) && (n <? 2^63).

(** Big-endian / little-endian numbers of a given width. *)
Fixpoint le_bytes (w : nat) (n : Z) : bytes :=
  match w with O => [] | S w' => n mod 256 :: le_bytes w' (n / 256) end.
Definition be_bytes (w : nat) (n : Z) : bytes := rev (le_bytes w n).
Fixpoint le_val (b : bytes) : Z :=
  match b with [] => 0 | x :: b' => x + 256 * le_val b' end.
Definition be_val (b : bytes) : Z := le_val (rev b).

(** Decimal printing: [strconv.FormatInt(n,10)] and [strconv.Itoa]. *)
Fixpoint dec_digits (fuel : nat) (n : Z) (acc : bytes) : bytes :=
  match fuel with
  | O => acc
  | S f => if n <? 10 then (48 + n) :: acc
           else dec_digits f (n / 10) ((48 + n mod 10) :: acc)
  end.
Definition dec_nat (n : Z) : bytes := dec_digits (S (Z.to_nat (Z.log2 n))) n [].
Definition fmt_int (n : Z) : bytes :=
  if n <? 0 then 45 :: dec_nat (- n) else dec_nat n.

(** Error values returned by the code (the text is irrelevant, the identity and
    the data used by [Error()] are kept). *)
Inductive json_err :=
| JET_NoObjBack | JET_NoArrBack | JET_NoKeyStart | JET_NoKeyEnd | JET_NoStrStart
| JET_NoStrEnd | JET_NoKVSplit | JET_NoValueSplit | JET_Invalidate.

Inductive gerr :=
| ErrUnKnownCode | ErrParseObjLen | ErrParseInt | ErrInvalidateCode | ErrMapKey
| ErrTruncated                      (* fmt.Errorf("msgpack: ... truncated") *)
| ErrInvalidBSON | ErrInvalidArrayBsonIndex | ErrBadBSONDocLen | ErrBsonType
| ErrJson (t : json_err) (idx : Z) (parseB : bytes)   (* *ErrorParseJson *)
| ErrJsonFmt                        (* errors.New("无效的Json格式") *)
| ErrYaml                           (* fmt.Errorf("无效的Yaml格式：...") *)
| ErrIO.

(** Outcome of a Go call: normal result, returned error, run-time panic, or
    (model artefact) exhausted fuel. *)
Inductive res (A : Type) :=
| Ok (a : A) | Err (e : gerr) | Panic | OutOfFuel.
Arguments Ok {A} _. Arguments Err {A} _. Arguments Panic {A}. Arguments OutOfFuel {A}.

Definition bind {A B} (r : res A) (f : A -> res B) : res B :=
  match r with Ok a => f a | Err e => Err e | Panic => Panic | OutOfFuel => OutOfFuel end.
Notation "'do' x <- r ; k" := (bind r (fun x => k))
  (at level 200, x pattern, r at level 100, k at level 200).

(** Everything the code calls that is not in /repo (DxCommonLib, strconv on
    floats, time, strings.EqualFold) plus the package variable [IgnoreCase]
    (dxvalue.go:33).  Floats are their IEEE bit patterns; times are
    (seconds, nanoseconds) since the Unix epoch. *)
Record env := {
  ignore_case : bool;                    (* dxvalue.go:33 *)
  x_fold : bytes -> bytes -> bool;       (* strings.EqualFold *)
  x_unescape : bytes -> bytes;           (* DxCommonLib.ParserEscapeStr *)
  x_escape : bool -> bytes -> bytes;     (* DxCommonLib.EscapeJsonbyte: bytes appended *)
  x_str2int : bytes -> Z -> Z;           (* DxCommonLib.StrToIntDef *)
  x_str2f64 : bytes -> Z -> Z;           (* DxCommonLib.StrToFloatDef (bits) *)
  x_parsefloat : bytes -> option Z;      (* DxCommonLib.ParseFloat (bits) *)
  x_jsontime : bytes -> option Z;        (* DxCommonLib.ParserJsonTime, None when < 0 *)
  x_f64_to_f32 : Z -> Z;                 (* float32(x) *)
  x_f32_to_f64 : Z -> Z;                 (* float64(x) *)
  x_i64_to_f64 : Z -> Z;                 (* float64(int64) *)
  x_f64_to_i64 : Z -> Z;                 (* int64(float64) *)
  x_f64_eq : Z -> Z -> bool;             (* == on float64 *)
  x_fmt_f64 : Z -> bytes;                (* strconv.AppendFloat(_,'f',-1,64) *)
  x_delphi : Z * Z -> Z;                 (* DxCommonLib.Time2DelphiTime (bits) *)
  x_totime : Z -> Z * Z;                 (* TDateTime.ToTime *)
  x_fmt_time : Z -> bytes;               (* .ToTime().Format("2006-01-02 15:04:05") *)
  x_bin2hex : bytes -> bytes             (* DxCommonLib.Bin2Hex *)
}.
