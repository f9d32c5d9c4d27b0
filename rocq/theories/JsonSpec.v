(** What a JSON document is, independently of the parser.

    A document denotes a [jtree].  The grammar is parameterised by the scalar tokens and
    the keys, so that the texts of RFC 8259 and the dialect this package accepts can be
    stated with the same rules for structure and whitespace. *)
From Coq Require Import String.
From Verif Require Import Base Values.

Inductive jtree : Type :=
| JString (raw : bytes)                    (* the bytes between the quotes *)
| JNumber (lex : bytes)
| JTrue | JFalse | JNull | JInf | JNan
| JObject (ms : list (bytes * jtree))      (* raw keys *)
| JArray (xs : list jtree).

Definition ws (w : bytes) : Prop := Forall (fun c => In c [32; 9; 10; 13]) w.

Section Grammar.
  Variable scalar : jtree -> bytes -> Prop.
  Variable key : bytes -> Prop.

  Inductive json : jtree -> bytes -> Prop :=
  | json_scalar t b : scalar t b -> json t b
  | json_empty_obj w : ws w -> json (JObject []) ([123] ++ w ++ [125])
  | json_empty_arr w : ws w -> json (JArray []) ([91] ++ w ++ [93])
  | json_obj ms b : members ms b -> json (JObject ms) ([123] ++ b ++ [125])
  | json_arr xs b : elems xs b -> json (JArray xs) ([91] ++ b ++ [93])
  with member : bytes -> jtree -> bytes -> Prop :=
  | member_intro w1 k w2 w3 x bx w4 :
      ws w1 -> key k -> ws w2 -> ws w3 -> json x bx -> ws w4 ->
      member k x (w1 ++ [34] ++ k ++ [34] ++ w2 ++ [58] ++ w3 ++ bx ++ w4)
  with members : list (bytes * jtree) -> bytes -> Prop :=
  | members_one k x b : member k x b -> members [(k, x)] b
  | members_more k x b ms bm :
      member k x b -> members ms bm -> members ((k, x) :: ms) (b ++ [44] ++ bm)
  with elems : list jtree -> bytes -> Prop :=
  | elems_one w1 x bx w2 : ws w1 -> json x bx -> ws w2 -> elems [x] (w1 ++ bx ++ w2)
  | elems_more w1 x bx w2 xs b :
      ws w1 -> json x bx -> ws w2 -> elems xs b ->
      elems (x :: xs) ((w1 ++ bx ++ w2) ++ [44] ++ b).
End Grammar.

Scheme json_mind := Minimality for json Sort Prop
  with member_mind := Minimality for member Sort Prop
  with members_mind := Minimality for members Sort Prop
  with elems_mind := Minimality for elems Sort Prop.
Combined Scheme json_mutind from json_mind, member_mind, members_mind, elems_mind.

(** ** Tokens *)

(** A quote is escaped when an odd number of backslashes precede it: a string's contents
    are plain bytes and two-byte escapes. *)
Inductive str_content : bytes -> Prop :=
| str_nil : str_content []
| str_plain c r : c <> 34 -> c <> 92 -> str_content r -> str_content (c :: r)
| str_esc c r : str_content r -> str_content (92 :: c :: r).

Definition digit (c : Z) : Prop := 48 <= c <= 57.
Definition number_byte (c : Z) : Prop := digit c \/ In c [46; 45; 101; 69; 43].
(** The dialect's numbers: any run of number bytes but a lone sign. *)
Definition number (lex : bytes) : Prop :=
  lex <> [] /\ lex <> [45] /\ lex <> [43] /\ Forall number_byte lex.

Definition sign (s : bytes) : Prop := s = [] \/ s = [45] \/ s = [43].
Definition up (c : Z) : Z := c - 32.
(** [w] spells the three-letter word [a b c] in any mixture of cases. *)
Definition spells (w : bytes) (a b c : Z) : Prop :=
  exists x y z, w = [x; y; z] /\ (x = a \/ x = up a) /\ (y = b \/ y = up b) /\ (z = c \/ z = up c).

(** Scalars of the dialect.  [d_n] is the quirk: an 'n' and any two bytes other than "an". *)
Inductive d_scalar : jtree -> bytes -> Prop :=
| d_str raw : str_content raw -> d_scalar (JString raw) ([34] ++ raw ++ [34])
| d_num lex : number lex -> d_scalar (JNumber lex) lex
| d_true : d_scalar JTrue (bs "true")
| d_false : d_scalar JFalse (bs "false")
| d_null : d_scalar JNull (bs "null")
| d_inf s w : sign s -> spells w 105 110 102 -> d_scalar JInf (s ++ w)
| d_nan s w : sign s -> spells w 110 97 110 -> (s = [] -> hd 0 w <> 110) ->
    d_scalar JNan (s ++ w)
| d_n a b : [a; b] <> [97; 110] -> d_scalar JNan [110; a; b].
Definition d_key (k : bytes) : Prop := ~ In 34 k.

(** Scalars of RFC 8259. *)
Definition digits (d : bytes) : Prop := d <> [] /\ Forall digit d.
Definition rfc_int (d : bytes) : Prop :=
  d = [48] \/ exists c r, d = c :: r /\ 49 <= c <= 57 /\ Forall digit r.
Definition rfc_number (lex : bytes) : Prop :=
  exists m i f e, lex = m ++ i ++ f ++ e /\ (m = [] \/ m = [45]) /\ rfc_int i /\
    (f = [] \/ exists d, f = 46 :: d /\ digits d) /\
    (e = [] \/ exists c s d, e = c :: s ++ d /\ (c = 101 \/ c = 69) /\ sign s /\ digits d).
Definition hexdigit (c : Z) : Prop := digit c \/ 65 <= c <= 70 \/ 97 <= c <= 102.
Inductive rfc_content : bytes -> Prop :=
| rfc_nil : rfc_content []
| rfc_plain c r : 32 <= c -> c <> 34 -> c <> 92 -> rfc_content r -> rfc_content (c :: r)
| rfc_esc c r : In c [34; 92; 47; 98; 102; 110; 114; 116] -> rfc_content r ->
    rfc_content (92 :: c :: r)
| rfc_u a b c d r : hexdigit a -> hexdigit b -> hexdigit c -> hexdigit d -> rfc_content r ->
    rfc_content (92 :: 117 :: a :: b :: c :: d :: r).
Inductive rfc_scalar : jtree -> bytes -> Prop :=
| rfc_str raw : rfc_content raw -> rfc_scalar (JString raw) ([34] ++ raw ++ [34])
| rfc_num lex : rfc_number lex -> rfc_scalar (JNumber lex) lex
| rfc_true : rfc_scalar JTrue (bs "true")
| rfc_false : rfc_scalar JFalse (bs "false")
| rfc_null : rfc_scalar JNull (bs "null").
(** RFC keys, and those that contain no (escaped) quote. *)
Definition rfc_key (k : bytes) : Prop := rfc_content k.
Definition rfc_key_nq (k : bytes) : Prop := rfc_content k /\ ~ In 34 k.

Definition dialect : jtree -> bytes -> Prop := json d_scalar d_key.
Definition rfc8259 : jtree -> bytes -> Prop := json rfc_scalar rfc_key.
Definition rfc8259_nq : jtree -> bytes -> Prop := json rfc_scalar rfc_key_nq.

Definition is_number (t : jtree) : Prop := match t with JNumber _ => True | _ => False end.

(** What may follow a token so that it is not read as part of it. *)
Definition follows (t : jtree) (b rest : bytes) : Prop :=
  (is_number t -> exists c r, rest = c :: r /\ ~ number_byte c) /\
  (b = bs "nul" -> hd 0 rest <> 108).

(** The value a document denotes. *)
Fixpoint tree_of (E : env) (t : jtree) : value :=
  match t with
  | JString raw => match x_jsontime E raw with None => VRawString raw | Some d => VDateTime d end
  | JNumber lex =>
      if in_dec Z.eq_dec 46 lex
      then VFloat (x_f64_to_f32 E (x_str2f64 E lex 0))
      else VInt 0 (x_str2int E lex 0)
  | JTrue => VTrue | JFalse => VFalse | JNull => VNull | JInf => VInf | JNan => VNan
  | JObject ms => VObject false (map (fun kx => (fst kx, tree_of E (snd kx))) ms)
  | JArray xs => VArray (map (tree_of E) xs)
  end.

(** ** String ends *)

(** Number of backslashes immediately before position [n] of [b]. *)
Fixpoint backslashes_before (b : bytes) (n : nat) : nat :=
  match n with
  | O => O
  | S m => if nth m b 0 =? 92 then S (backslashes_before b m) else O
  end.
(** Position [n] of [b] holds a quote that is not escaped. *)
Definition closing (b : bytes) (n : nat) : Prop :=
  nth_error b n = Some 34 /\ Nat.even (backslashes_before b n) = true.

(** ** What a value means to its user: escapes resolved, lazily or not. *)
Inductive dval : Type :=
| DObj (ms : list (bytes * dval)) | DArr (xs : list dval)
| DStr (s : bytes) | DInt (n : Z) | DReal (bits : Z) | DDate (bits : Z)
| DBool (b : bool) | DNull | DOther (v : value).

Fixpoint denote (E : env) (v : value) : dval :=
  match v with
  | VObject u kvs =>
      DObj (map (fun kv => (if u then fst kv else x_unescape E (fst kv), denote E (snd kv))) kvs)
  | VArray l => DArr (map (denote E) l)
  | VString s => DStr s
  | VRawString s => DStr (x_unescape E s)
  | VInt _ n => DInt n
  | VFloat r => DReal (x_f32_to_f64 E (r mod 2 ^ 32))
  | VDouble d => DReal d
  | VDateTime d => DDate d
  | VTrue => DBool true | VFalse => DBool false
  | VNull | VNilP => DNull
  | v => DOther v
  end.

(** ** Values that can be written as JSON *)

(** The text of a key or string for an escaping style: [None] writes it as it is,
    [Some all] escapes it. *)
Definition key_text (E : env) (esc : option bool) (unescaped : bool) (k : bytes) : bytes :=
  match esc, unescaped with
  | None, true => k
  | None, false => x_unescape E k
  | Some all, true => x_escape E all k
  | Some _, false => k
  end.
Definition str_text (E : env) (esc : option bool) (s : bytes) : bytes :=
  match esc with None => s | Some all => x_escape E all s end.
Definition date_text (E : env) (escDate : bool) (d : Z) : bytes :=
  if escDate
  then bs "/Date(" ++ fmt_int (to_i64 (fst (x_totime E d) * 1000)) ++ bs ")/"
  else x_fmt_time E d.

(** Every key is free of quotes once escaped, every string is a string token, every float
    prints as a number (so it is not NaN), and there is nothing JSON has no notation for. *)
Fixpoint writable (E : env) (esc : option bool) (escDate : bool) (v : value) : Prop :=
  match v with
  | VObject u kvs =>
      fold_right (fun kv P => (d_key (key_text E esc u (fst kv)) /\
                               writable E esc escDate (snd kv)) /\ P) True kvs
  | VArray l =>
      fold_right (fun x P => match x with VNilP => True | _ => writable E esc escDate x end /\ P)
        True l
  | VString s => str_content (str_text E esc s)
  | VRawString s => str_content s
  | VInt _ _ | VTrue | VFalse | VNull => True
  | VFloat r => number (x_fmt_f64 E (x_f32_to_f64 E (r mod 2 ^ 32)))
  | VDouble d => number (x_fmt_f64 E d)
  | VDateTime d => str_content (date_text E escDate d)
  | _ => False
  end.

(** Values for which writing with escaping and reading back is the identity: only objects,
    arrays, strings, integers, booleans and null. *)
Fixpoint jplain (E : env) (all : bool) (v : value) : Prop :=
  match v with
  | VObject u kvs =>
      fold_right (fun kv P =>
        ((if u then ~ In 34 (x_escape E all (fst kv)) /\
                    x_unescape E (x_escape E all (fst kv)) = fst kv
          else ~ In 34 (fst kv)) /\ jplain E all (snd kv)) /\ P) True kvs
  | VArray l => fold_right (fun x P => jplain E all x /\ P) True l
  | VString s => str_content (x_escape E all s) /\
      x_unescape E (x_escape E all s) = s /\ x_jsontime E (x_escape E all s) = None
  | VRawString s => str_content s /\ x_jsontime E s = None
  | VInt _ n => i64_ok n
  | VTrue | VFalse | VNull => True
  | _ => False
  end.

(** Reading a printed integer gives it back. *)
Definition int_parser_ok (E : env) : Prop :=
  forall n d, i64_ok n -> x_str2int E (fmt_int n) d = n.
