(** The BSON format (public specification, bsonspec.org) for the element types the
    library writes: abstract documents, their byte encoding, and the value trees they
    stand for. *)
From Verif Require Import Base Values.

Inductive bval : Type :=
| BDouble (bits : Z)
| BStr (s : bytes)
| BDoc (kvs : list (bytes * bval))
| BArr (l : list bval)
| BBin (sub : Z) (b : bytes)
| BOid (b : bytes)
| BBool (b : bool)
| BDate (ms : Z)
| BNull
| BInt32 (n : Z)
| BTs (u : Z)
| BInt64 (n : Z)
| BDec (b : bytes).

(** Little-endian numbers, two's complement for negative ones. *)
Definition le (w : nat) (n : Z) : bytes := le_bytes w n.

(** Type byte of an element. *)
Definition btag (m : bval) : Z :=
  match m with
  | BDouble _ => 0x01 | BStr _ => 0x02 | BDoc _ => 0x03 | BArr _ => 0x04 | BBin _ _ => 0x05
  | BOid _ => 0x07 | BBool _ => 0x08 | BDate _ => 0x09 | BNull => 0x0a | BInt32 _ => 0x10
  | BTs _ => 0x11 | BInt64 _ => 0x12 | BDec _ => 0x13
  end.

(** A document: int32 total size, elements, NUL. *)
Definition frame (body : bytes) : bytes := le 4 (zlen body + 5) ++ body ++ [0].

(** The names of array elements: decimal indices from [i]. *)
Fixpoint number {A} (i : Z) (l : list A) : list (bytes * A) :=
  match l with [] => [] | x :: r => (fmt_int i, x) :: number (i + 1) r end.

Fixpoint payload (m : bval) : bytes :=
  match m with
  | BDouble bits => le 8 bits
  | BStr s => le 4 (zlen s + 1) ++ s ++ [0]
  | BDoc kvs => frame (concat (map (fun kv => btag (snd kv) :: fst kv ++ 0 :: payload (snd kv)) kvs))
  | BArr l => frame (concat ((fix go (i : Z) (l : list bval) : list bytes :=
       match l with
       | [] => []
       | x :: r => (btag x :: fmt_int i ++ 0 :: payload x) :: go (i + 1) r
       end) 0 l))
  | BBin sub b => le 4 (zlen b) ++ sub :: b
  | BOid b => b
  | BBool b => [if b then 1 else 0]
  | BDate ms => le 8 ms
  | BNull => []
  | BInt32 n => le 4 n
  | BTs u => le 8 u
  | BInt64 n => le 8 n
  | BDec b => b
  end.

(** An element: type byte, name, NUL, payload; and a list of them. *)
Definition element (kv : bytes * bval) : bytes := btag (snd kv) :: fst kv ++ 0 :: payload (snd kv).
Definition elements (l : list (bytes * bval)) : bytes := concat (map element l).

(** No NUL inside a name. *)
Definition no_nul (k : bytes) : Prop := ~ In 0 k.

(** Well-formed documents: fields in range, fixed sizes, names free of NUL. *)
Fixpoint bwf (m : bval) : Prop :=
  match m with
  | BDouble n | BTs n => 0 <= n < 2 ^ 64
  | BStr s => bytes_ok s
  | BDoc kvs =>
      fold_right (fun kv P => (bytes_ok (fst kv) /\ no_nul (fst kv)) /\ bwf (snd kv) /\ P) True kvs
  | BArr l => fold_right (fun x P => bwf x /\ P) True l
  | BBin sub b => byte_ok sub /\ bytes_ok b
  | BOid b => bytes_ok b /\ zlen b = 12
  | BDec b => bytes_ok b /\ zlen b = 16
  | BDate n | BInt64 n => i64_ok n
  | BInt32 n => - 2 ^ 31 <= n < 2 ^ 31
  | BBool _ | BNull => True
  end.

(** The documents the decoder reads back as intended: no empty documents or arrays inside
    or at the top, no old-style binaries (subtype 2), names pairwise different. *)
Definition names_apart (E : env) {A} (kvs : list (bytes * A)) : Prop :=
  ForallOrdPairs (fun a b => key_match E (fst a) (fst b) = false) kvs.
Fixpoint readable (E : env) (m : bval) : Prop :=
  match m with
  | BDoc kvs => kvs <> [] /\ names_apart E kvs /\
      fold_right (fun kv P => readable E (snd kv) /\ P) True kvs
  | BArr l => l <> [] /\ fold_right (fun x P => readable E x /\ P) True l
  | BBin sub _ => sub <> 2
  | _ => True
  end.

(** The instant [ms] milliseconds after the epoch. *)
Definition instant (ms : Z) : Z * Z := (ms / 1000, (ms mod 1000) * 1000000).

(** What the decoder makes of a document.  Deviations from the intended meaning, each a
    property of its own: int32 fields are read as unsigned, generic binaries keep the
    subtype as first byte; dates outside the int64 nanosecond range wrap around (excluded by
    [dates_ok]). *)
Fixpoint btree (E : env) (m : bval) : value :=
  match m with
  | BDouble bits => VDouble bits
  | BStr s => VString s
  | BDoc kvs => VObject true (map (fun kv => (fst kv, btree E (snd kv))) kvs)
  | BArr l => VArray (map (btree E) l)
  | BBin sub b => VBinary 0 (sub :: b)
  | BOid b => VBinary 7 b
  | BBool true => VTrue
  | BBool false => VFalse
  | BDate ms => VDateTime (x_delphi E (instant ms))           (* see [dates_ok] *)
  | BNull => VNull
  | BInt32 n => VInt 0 (n mod 2 ^ 32)
  | BTs u => VInt 17 (if u <? 2 ^ 63 then u else u - 2 ^ 64)
  | BInt64 n => VInt 0 n
  | BDec b => VBinary 19 b
  end.
Fixpoint dates_ok (m : bval) : Prop :=
  match m with
  | BDate ms => i64_ok (ms * 1000000)
  | BDoc kvs => fold_right (fun kv P => dates_ok (snd kv) /\ P) True kvs
  | BArr l => fold_right (fun x P => dates_ok x /\ P) True l
  | _ => True
  end.

(** The document a value tree stands for.  None: NaN/Inf, unrepresentable binaries. *)
Fixpoint opt_all {A} (l : list (option A)) : option (list A) :=
  match l with
  | [] => Some []
  | Some x :: r => option_map (cons x) (opt_all r)
  | None :: _ => None
  end.
Fixpoint doc_of (E : env) (v : value) : option bval :=
  match v with
  | VNilP | VNull => Some BNull
  | VObject u kvs => option_map BDoc (opt_all (map (fun kv =>
      option_map (fun m => (if u then fst kv else x_unescape E (fst kv), m)) (doc_of E (snd kv))) kvs))
  | VArray l => option_map BArr (opt_all (map (doc_of E) l))
  | VString s => Some (BStr s)
  | VRawString s => Some (BStr (x_unescape E s))
  | VInt ext n =>
      Some (if ext =? 17 then BTs (n mod 2 ^ 64)
            else if (- 2 ^ 31 <=? n) && (n <? 2 ^ 31) then BInt32 n else BInt64 n)
  | VFloat raw => Some (BDouble raw)
  | VDouble bits => Some (BDouble bits)
  | VDateTime bits =>
      let (sec, nsec) := x_totime E bits in
      let ns := sec * 1000000000 + nsec in
      if i64_okb ns then Some (BDate (Z.quot ns 1000000)) else None
  | VBinary ext b =>
      if (ext =? 7) then if zlen b =? 12 then Some (BOid b) else None
      else if (ext =? 19) then if zlen b =? 16 then Some (BDec b) else None
      else if (ext =? 0) || (ext =? 5) then Some (BBin 0 b) else None
  | VExBinary ext b =>
      if ext =? 5 then match b with sub :: d => Some (BBin sub d) | [] => None end
      else if ext =? 0 then Some (BBin 0 b) else None
  | VTrue => Some (BBool true)
  | VFalse => Some (BBool false)
  | VNan | VInf => None
  end.

(** The external index parser inverts decimal printing. *)
Definition index_parser_ok (E : env) : Prop :=
  forall i d, 0 <= i < 2 ^ 63 -> x_str2int E (fmt_int i) d = i.

(** The values of the round-trip property C11. *)
Fixpoint bplain (E : env) (v : value) : Prop :=
  match v with
  | VObject u kvs => u = true /\ kvs <> [] /\ names_apart E kvs /\
      fold_right (fun kv P => (bytes_ok (fst kv) /\ no_nul (fst kv)) /\ bplain E (snd kv) /\ P) True kvs
  | VArray l => l <> [] /\ fold_right (fun x P => bplain E x /\ P) True l
  | VString s => bytes_ok s
  | VInt ext n => (ext = 0 /\ i64_ok n /\ ~ (- 2 ^ 31 <= n < 0)) \/ (ext = 17 /\ i64_ok n)
  | VDouble bits => 0 <= bits < 2 ^ 64
  | VDateTime bits => exists ms, i64_ok (ms * 1000000) /\ x_totime E bits = instant ms /\
      x_delphi E (instant ms) = bits
  | VBinary ext b => bytes_ok b /\ ((ext = 7 /\ zlen b = 12) \/ (ext = 19 /\ zlen b = 16))
  | VNull | VTrue | VFalse => True
  | _ => False
  end.

(** The name of the first member of a document, if it has one, is no number. *)
Definition first_word (E : env) (b : bytes) : Prop :=
  forall n, index_byte (skipn 5 b) 0 = Some n -> x_str2int E (firstn n (skipn 5 b)) (-1) = -1.
