(** The MessagePack format table (public specification), written as a relation
    between abstract messages and byte strings.  Nothing here mentions the model of
    the code; the only shared notions are byte strings and value trees. *)
From Verif Require Import Base Values.

(** The MessagePack data model, restricted to maps with string keys.  Timestamps are
    kept apart from the other extensions. *)
Inductive mval : Type :=
| MNil
| MBool (b : bool)
| MInt (n : Z)
| MF32 (bits : Z)
| MF64 (bits : Z)
| MStr (s : bytes)
| MBin (b : bytes)
| MExt (t : Z) (p : bytes)
| MTime (sec nsec : Z)
| MArr (l : list mval)
| MMap (kvs : list (bytes * mval)).

(** Big-endian value of a byte string. *)
Definition big_endian (b : bytes) : Z := fold_left (fun acc x => acc * 256 + x) b 0.

(** Two's complement reading of a [w]-byte number. *)
Definition signed (w : nat) (n : Z) : Z :=
  if n <? 2 ^ (8 * Z.of_nat w - 1) then n else n - 2 ^ (8 * Z.of_nat w).

(** [be_num w p n]: [p] is the [w]-byte big-endian form of [n]. *)
Definition be_num (w : nat) (p : bytes) (n : Z) : Prop :=
  length p = w /\ bytes_ok p /\ big_endian p = n.

(** A string header: fixstr, str 8, str 16, str 32. *)
Inductive str_hdr (n : Z) : bytes -> Prop :=
| sh_fix : 0 <= n <= 31 -> str_hdr n [0xa0 + n]
| sh_8 p : be_num 1 p n -> str_hdr n (0xd9 :: p)
| sh_16 p : be_num 2 p n -> str_hdr n (0xda :: p)
| sh_32 p : be_num 4 p n -> str_hdr n (0xdb :: p).

Inductive bin_hdr (n : Z) : bytes -> Prop :=
| bh_8 p : be_num 1 p n -> bin_hdr n (0xc4 :: p)
| bh_16 p : be_num 2 p n -> bin_hdr n (0xc5 :: p)
| bh_32 p : be_num 4 p n -> bin_hdr n (0xc6 :: p).

Inductive arr_hdr (n : Z) : bytes -> Prop :=
| ah_fix : 0 <= n <= 15 -> arr_hdr n [0x90 + n]
| ah_16 p : be_num 2 p n -> arr_hdr n (0xdc :: p)
| ah_32 p : be_num 4 p n -> arr_hdr n (0xdd :: p).

Inductive map_hdr (n : Z) : bytes -> Prop :=
| mh_fix : 0 <= n <= 15 -> map_hdr n [0x80 + n]
| mh_16 p : be_num 2 p n -> map_hdr n (0xde :: p)
| mh_32 p : be_num 4 p n -> map_hdr n (0xdf :: p).

Inductive ext_hdr (n : Z) : bytes -> Prop :=
| eh_1 : n = 1 -> ext_hdr n [0xd4]
| eh_2 : n = 2 -> ext_hdr n [0xd5]
| eh_4 : n = 4 -> ext_hdr n [0xd6]
| eh_8 : n = 8 -> ext_hdr n [0xd7]
| eh_16 : n = 16 -> ext_hdr n [0xd8]
| eh_e8 p : be_num 1 p n -> ext_hdr n (0xc7 :: p)
| eh_e16 p : be_num 2 p n -> ext_hdr n (0xc8 :: p)
| eh_e32 p : be_num 4 p n -> ext_hdr n (0xc9 :: p).

(** All encodings of an integer. *)
Inductive int_wire (n : Z) : bytes -> Prop :=
| iw_pos : 0 <= n <= 127 -> int_wire n [n]
| iw_neg : -32 <= n <= -1 -> int_wire n [256 + n]
| iw_u8 p : be_num 1 p n -> int_wire n (0xcc :: p)
| iw_u16 p : be_num 2 p n -> int_wire n (0xcd :: p)
| iw_u32 p : be_num 4 p n -> int_wire n (0xce :: p)
| iw_u64 p : be_num 8 p n -> int_wire n (0xcf :: p)
| iw_i8 p u : be_num 1 p u -> n = signed 1 u -> int_wire n (0xd0 :: p)
| iw_i16 p u : be_num 2 p u -> n = signed 2 u -> int_wire n (0xd1 :: p)
| iw_i32 p u : be_num 4 p u -> n = signed 4 u -> int_wire n (0xd2 :: p)
| iw_i64 p u : be_num 8 p u -> n = signed 8 u -> int_wire n (0xd3 :: p).

(** The three timestamp formats (extension type -1 = 0xff). *)
Inductive time_wire (sec nsec : Z) : bytes -> Prop :=
| tw_32 p : nsec = 0 -> be_num 4 p sec -> time_wire sec nsec (0xd6 :: 0xff :: p)
| tw_64 p : 0 <= nsec <= 999999999 -> 0 <= sec < 2 ^ 34 ->
    be_num 8 p (nsec * 2 ^ 34 + sec) -> time_wire sec nsec (0xd7 :: 0xff :: p)
| tw_96 p q u : 0 <= nsec <= 999999999 ->
    be_num 4 p nsec -> be_num 8 q u -> sec = signed 8 u ->
    time_wire sec nsec (0xc7 :: 12 :: 0xff :: p ++ q).

(** All encodings of a message. *)
Inductive wire : mval -> bytes -> Prop :=
| w_nil : wire MNil [0xc0]
| w_false : wire (MBool false) [0xc2]
| w_true : wire (MBool true) [0xc3]
| w_int n b : int_wire n b -> wire (MInt n) b
| w_f32 n p : be_num 4 p n -> wire (MF32 n) (0xca :: p)
| w_f64 n p : be_num 8 p n -> wire (MF64 n) (0xcb :: p)
| w_str s h : bytes_ok s -> str_hdr (zlen s) h -> wire (MStr s) (h ++ s)
| w_bin s h : bytes_ok s -> bin_hdr (zlen s) h -> wire (MBin s) (h ++ s)
| w_ext t s h : byte_ok t -> bytes_ok s -> ext_hdr (zlen s) h -> wire (MExt t s) (h ++ t :: s)
| w_time sec nsec b : time_wire sec nsec b -> wire (MTime sec nsec) b
| w_arr l h b : arr_hdr (zlen l) h -> wires l b -> wire (MArr l) (h ++ b)
| w_map l h b : map_hdr (zlen l) h -> kwires l b -> wire (MMap l) (h ++ b)
with wires : list mval -> bytes -> Prop :=
| ws_nil : wires [] []
| ws_cons m l b c : wire m b -> wires l c -> wires (m :: l) (b ++ c)
with kwires : list (bytes * mval) -> bytes -> Prop :=
| kw_nil : kwires [] []
| kw_cons k m l h b c : bytes_ok k -> str_hdr (zlen k) h -> wire m b -> kwires l c ->
    kwires ((k, m) :: l) (h ++ k ++ b ++ c).

Scheme wire_mind := Induction for wire Sort Prop
  with wires_mind := Induction for wires Sort Prop
  with kwires_mind := Induction for kwires Sort Prop.
Combined Scheme wire_mutind from wire_mind, wires_mind, kwires_mind.

(** Insertion-ordered map with a key comparison: replace the value of the first
    matching key, else append. *)
Fixpoint upsert {A} (same : bytes -> bytes -> bool) (kvs : list (bytes * A)) (k : bytes) (x : A)
  : list (bytes * A) :=
  match kvs with
  | [] => [(k, x)]
  | (k', y) :: r => if same k' k then (k', x) :: r else (k', y) :: upsert same r k x
  end.
Definition upserts {A} same (l : list (bytes * A)) (acc : list (bytes * A)) :=
  fold_left (fun acc kv => upsert same acc (fst kv) (snd kv)) l acc.

(** The value tree a message stands for.  [wrap64]: an unsigned 64-bit payload of
    2^63 or more does not fit the library's int64 and is read modulo 2^64. *)
Definition wrap64 (n : Z) : Z := if n <? 2 ^ 63 then n else n - 2 ^ 64.

Fixpoint tree_of (E : env) (m : mval) : value :=
  match m with
  | MNil => VNull
  | MBool true => VTrue
  | MBool false => VFalse
  | MInt n => VInt 0 (wrap64 n)
  | MF32 n => VFloat n
  | MF64 n => VDouble n
  | MStr s => VString s
  | MBin s => VBinary 0 s
  | MExt t s => VExBinary 0 (t :: s)
  | MTime sec nsec => VDateTime (x_delphi E (sec, nsec))
  | MArr l => VArray (map (tree_of E) l)
  | MMap [] => VObject false []
  | MMap kvs => VObject true
      (upserts (key_match E) (map (fun kv => (fst kv, tree_of E (snd kv))) kvs) [])
  end.

(** Messages that use extension type 0xff only for timestamps. *)
Fixpoint ext_clean (m : mval) : Prop :=
  match m with
  | MExt t _ => t <> 0xff
  | MArr l => fold_right (fun x P => ext_clean x /\ P) True l
  | MMap kvs => fold_right (fun kv P => ext_clean (snd kv) /\ P) True kvs
  | _ => True
  end.

(** The message a value tree stands for (what another MessagePack implementation is
    expected to see). None: no such message (NaN/Inf have no representation in the
    library's encoder; extension data without a type byte). *)
Fixpoint opt_all {A} (l : list (option A)) : option (list A) :=
  match l with
  | [] => Some []
  | Some x :: r => option_map (cons x) (opt_all r)
  | None :: _ => None
  end.

Fixpoint message_of (E : env) (v : value) : option mval :=
  match v with
  | VNilP | VNull => Some MNil
  | VTrue => Some (MBool true)
  | VFalse => Some (MBool false)
  | VInt _ n => Some (MInt n)
  | VFloat raw => Some (MF32 (raw mod 2 ^ 32))
  | VDouble n => Some (MF64 n)
  | VString s | VRawString s => Some (MStr s)
  | VBinary _ s => Some (MBin s)
  | VExBinary _ (t :: s) => Some (MExt t s)
  | VExBinary _ [] => None
  | VDateTime bits => let (sec, nsec) := x_totime E bits in Some (MTime sec nsec)
  | VArray l => option_map MArr (opt_all (map (message_of E) l))
  | VObject _ kvs =>
      option_map MMap (opt_all (map (fun kv => option_map (pair (fst kv)) (message_of E (snd kv))) kvs))
  | VNan | VInf => None
  end.

(** Size limits of the format: strings, binaries and containers below 2^32, numbers
    that fit their slots, valid instants. *)
Fixpoint fits (E : env) (v : value) : Prop :=
  match v with
  | VInt _ n => i64_ok n
  | VFloat raw => 0 <= raw < 2 ^ 64
  | VDouble n => 0 <= n < 2 ^ 64
  | VString s | VRawString s | VBinary _ s => bytes_ok s /\ zlen s < 2 ^ 32
  | VExBinary _ s => bytes_ok s /\ zlen s <= 2 ^ 32
  | VDateTime bits =>
      i64_ok (fst (x_totime E bits)) /\ 0 <= snd (x_totime E bits) <= 999999999
  | VArray l => zlen l < 2 ^ 32 /\ fold_right (fun x P => fits E x /\ P) True l
  | VObject _ kvs => zlen kvs < 2 ^ 32 /\
      fold_right (fun kv P => (bytes_ok (fst kv) /\ zlen (fst kv) < 2 ^ 32) /\ fits E (snd kv) /\ P)
        True kvs
  | _ => True
  end.

(** Extension payloads whose length is not one of the five fixext sizes. *)
Fixpoint no_fixext (v : value) : Prop :=
  match v with
  | VExBinary _ (_ :: p) => ~ In (zlen p) [1; 2; 4; 8; 16]
  | VArray l => fold_right (fun x P => no_fixext x /\ P) True l
  | VObject _ kvs => fold_right (fun kv P => no_fixext (snd kv) /\ P) True kvs
  | _ => True
  end.

(** Values in the form the decoder produces them: the round trip is the identity on them.
    [unescaped = true] says the keys are stored as they are; an empty object carries the
    flag's initial value.  Keys must be pairwise different under the library's comparison. *)
Definition keys_apart (E : env) {A} (kvs : list (bytes * A)) : Prop :=
  ForallOrdPairs (fun a b => key_match E (fst a) (fst b) = false) kvs.

Fixpoint plain (E : env) (v : value) : Prop :=
  match v with
  | VObject u kvs => u = negb (match kvs with [] => true | _ => false end) /\
      keys_apart E kvs /\ fold_right (fun kv P => plain E (snd kv) /\ P) True kvs
  | VArray l => fold_right (fun x P => plain E x /\ P) True l
  | VString _ | VDouble _ | VNull | VTrue | VFalse => True
  | VInt ext _ => ext = 0
  | VFloat raw => 0 <= raw < 2 ^ 32
  | VBinary ext _ => ext = 0
  | VExBinary ext b => ext = 0 /\ match b with [] => False | t :: _ => t <> 255 end
  | VDateTime bits => x_delphi E (x_totime E bits) = bits
  | VNilP | VRawString _ | VNan | VInf => False
  end.

(** A nil pointer somewhere inside a value. *)
Inductive has_nil : value -> Prop :=
| hn_here : has_nil VNilP
| hn_arr l x : In x l -> has_nil x -> has_nil (VArray l)
| hn_obj u kvs k x : In (k, x) kvs -> has_nil x -> has_nil (VObject u kvs).

(** Byte strings on which the decoder is allowed to blow up: a map header announcing at
    least one pair at the very end of the input; an extension header followed by exactly
    as many bytes as the payload (so that the type byte is missing); an [ext 8] with the
    timestamp type and fewer than 12 bytes after the type. *)
Inductive fatal_tail : bytes -> Prop :=
| ft_map n h : map_hdr n h -> 0 < n -> fatal_tail h
| ft_ext n h r : ext_hdr n h -> zlen r = n -> fatal_tail (h ++ r)
| ft_time n r : n < zlen r + 1 -> zlen r < 12 -> fatal_tail (0xc7 :: n :: 0xff :: r).

(** First occurrences, and last/first association, for a key comparison. *)
Fixpoint first_occ (same : bytes -> bytes -> bool) (seen ks : list bytes) : list bytes :=
  match ks with
  | [] => []
  | k :: r => if existsb (fun s => same s k) seen then first_occ same seen r
              else k :: first_occ same (seen ++ [k]) r
  end.
Definition assoc_last {A} (same : bytes -> bytes -> bool) (k : bytes) (l : list (bytes * A)) : option A :=
  fold_left (fun acc kv => if same (fst kv) k then Some (snd kv) else acc) l None.
Fixpoint assoc_first {A} (same : bytes -> bytes -> bool) (k : bytes) (l : list (bytes * A)) : option A :=
  match l with
  | [] => None
  | (k', x) :: r => if same k' k then Some x else assoc_first same k r
  end.

(** What [strings.EqualFold] satisfies (only needed when IgnoreCase is on). *)
Definition fold_equiv (E : env) : Prop :=
  ignore_case E = true ->
  (forall a, x_fold E a a = true) /\
  (forall a b, x_fold E a b = true -> x_fold E b a = true) /\
  (forall a b c, x_fold E a b = true -> x_fold E b c = true -> x_fold E a c = true).

(** ** What the decoder accepts beyond the format table
    Lenient readings: [LOdd] an extension with the timestamp type whose length or
    nanoseconds are not those of a timestamp, [LNever] the never-used code 0xc1 (which
    swallows the rest of the input), and binary headers on map keys other than the first
    ([true] marks such a key). *)
Inductive lval : Type :=
| LScalar (m : mval)
| LOdd (bits : Z)
| LNever
| LArr (l : list lval)
| LMap (kvs : list (bool * bytes * lval)).

Definition scalar (m : mval) : Prop :=
  match m with MArr _ | MMap _ => False | _ => True end.

Inductive key_hdr : bool -> Z -> bytes -> Prop :=
| kh_str n h : str_hdr n h -> key_hdr false n h
| kh_bin n h : bin_hdr n h -> key_hdr true n h.

Inductive lwire : lval -> bytes -> Prop :=
| lw_scalar m b : scalar m -> wire m b -> lwire (LScalar m) b
| lw_odd8 n p bits : zlen p = n ->
    (forall sec nsec, ~ time_wire sec nsec (0xc7 :: n :: 0xff :: p)) ->
    lwire (LOdd bits) (0xc7 :: n :: 0xff :: p)
| lw_odd64 p bits : zlen p = 8 ->
    (forall sec nsec, ~ time_wire sec nsec (0xd7 :: 0xff :: p)) -> lwire (LOdd bits) (0xd7 :: 0xff :: p)
| lw_never junk : lwire LNever (0xc1 :: junk)
| lw_arr l h b : arr_hdr (zlen l) h -> lwires l b -> lwire (LArr l) (h ++ b)
| lw_map l h b : map_hdr (zlen l) h -> lkwires l b ->
    match l with [] => True | ((bk, _), _) :: _ => bk = false end ->
    lwire (LMap l) (h ++ b)
with lwires : list lval -> bytes -> Prop :=
| lws_nil : lwires [] []
| lws_cons m l b c : lwire m b -> lwires l c -> lwires (m :: l) (b ++ c)
with lkwires : list (bool * bytes * lval) -> bytes -> Prop :=
| lkw_nil : lkwires [] []
| lkw_cons bk k m l h b c : bytes_ok k -> key_hdr bk (zlen k) h -> lwire m b -> lkwires l c ->
    lkwires (((bk, k), m) :: l) (h ++ k ++ b ++ c).

Scheme lwire_mind := Induction for lwire Sort Prop
  with lwires_mind := Induction for lwires Sort Prop
  with lkwires_mind := Induction for lkwires Sort Prop.
Combined Scheme lwire_mutind from lwire_mind, lwires_mind, lkwires_mind.

Fixpoint ltree (E : env) (l : lval) : value :=
  match l with
  | LScalar m => tree_of E m
  | LOdd bits => VDateTime bits
  | LNever => VNilP
  | LArr l => VArray (map (ltree E) l)
  | LMap [] => VObject false []
  | LMap kvs => VObject true
      (upserts (key_match E) (map (fun kv => (snd (fst kv), ltree E (snd kv))) kvs) [])
  end.

(** A reading that uses none of the leniencies is a conforming message. *)
Fixpoint strict (l : lval) : option mval :=
  match l with
  | LScalar m => Some m
  | LOdd _ | LNever => None
  | LArr l => option_map MArr (opt_all (map strict l))
  | LMap kvs => option_map MMap (opt_all (map (fun kv : bool * bytes * lval =>
      if fst (fst kv) then None
      else option_map (fun m => (snd (fst kv), m)) (strict (snd kv))) kvs))
  end.
