(** Model of the JSON codec (jsonparse.go) on value trees.

    Simplifications: the cells handed out by [ValueCache.getValue] are assumed zeroed
    (the heap model, HeapModel.v, is about what happens when they are not), slices
    have no spare capacity, [sharebinary] only selects between copying and aliasing and
    so does not change the result of parsing, and the [tail] that the internal functions
    return beside an error is dropped because no caller looks at it. *)
From Coq Require Import String.
From Verif Require Import Base Values.

(** One of the four bytes skipped by [skipWB] (jsonparse.go:627,631). *)
Definition wsb (c : Z) : bool := (c =? 32) || (c =? 10) || (c =? 9) || (c =? 13).

(** The loop of [skipWB] from index [i] on (jsonparse.go:630-635). *)
Fixpoint skip_loop (i : Z) (b : bytes) : bytes * Z :=
  match b with
  | [] => ([], 0)
  | c :: r => if wsb c then skip_loop (i + 1) r else (b, i - 1)
  end.
(** [skipWB] (jsonparse.go:623-636). *)
Definition skipWB (b : bytes) : bytes * Z :=
  match b with
  | [] => (b, 0)
  | c :: r => if wsb c then skip_loop 1 r else (b, 0)
  end.

Definition jerr {A} (t : json_err) (i : Z) (b : bytes) : res A := Err (ErrJson t i b).

(** jsonparse.go:263-266: go back from [i] while the byte before is a backslash. *)
Fixpoint run_start (b : bytes) (i : nat) : nat :=
  match i with
  | O => O
  | S j => if nth j b 0 =? 92 then run_start b j else i
  end.

(** The [for] loop of [parseJsonString] (jsonparse.go:262-288); [n] is the index in [b]
    of a quote with a backslash before it. *)
Fixpoint str_loop (fuel : nat) (ss b : bytes) (n : nat) : res (bytes * bytes) :=
  match fuel with
  | O => OutOfFuel
  | S f =>
      let i := run_start b (n - 1) in
      if Nat.even (n - i) then
        Ok (firstn (List.length ss - List.length b + n) ss, skipn (n + 1) b)
      else
        let b' := skipn (n + 1) b in
        match index_byte b' 34 with
        | None => jerr JET_NoStrEnd 0 []
        | Some m =>
            if (m =? 0)%nat || negb (nth (m - 1) b' 0 =? 92)
            then Ok (firstn (List.length ss - List.length b' + m) ss, skipn (m + 1) b')
            else str_loop f ss b' m
        end
  end.
(** [parseJsonString] (jsonparse.go:246-289): the contents and the rest of the input. *)
Definition parseJsonString (b : bytes) : res (bytes * bytes) :=
  match index_byte b 34 with
  | None => jerr JET_NoStrEnd 0 []
  | Some n =>
      if (n =? 0)%nat || negb (nth (n - 1) b 0 =? 92)
      then Ok (firstn n b, skipn (n + 1) b)
      else str_loop (S (List.length b)) b b n
  end.

(** The loop of [parseJsonKey] (jsonparse.go:224-239) at index [i] of [b] ([r] are the
    bytes from [i] on).  At a backslash [parseJsonString] is called on the whole of [b]
    and its results are overwritten by the next [return]. *)
Fixpoint key_loop (b : bytes) (i : nat) (r : bytes) : res (bytes * bytes) :=
  match r with
  | [] => jerr JET_NoKeyStart (zlen b) []
  | c :: r' =>
      if c =? 34 then Ok (firstn i b, skipn (i + 1) b)
      else if c =? 92 then
        match parseJsonString b with
        | Panic => Panic
        | OutOfFuel => OutOfFuel
        | _ => key_loop b (S i) r'
        end
      else key_loop b (S i) r'
  end.
(** [parseJsonKey] (jsonparse.go:222-244). *)
Definition parseJsonKey (b : bytes) : res (bytes * bytes) := key_loop b 0 b.

(** Bytes accepted inside a number (jsonparse.go:592). *)
Definition numchar (c : Z) : bool :=
  ((48 <=? c) && (c <=? 57)) || (c =? 46) || (c =? 45) || (c =? 101) || (c =? 69) || (c =? 43).
(** Index of the first byte that is not one. *)
Fixpoint num_end (b : bytes) : option nat :=
  match b with
  | [] => None
  | c :: r => if numchar c then option_map S (num_end r) else Some O
  end.

(** [bytes.EqualFold(xs, w)] for a three-letter ASCII word [w] made of letters that no
    other rune folds to (only "inf" and "nan" are used, jsonparse.go:598,601). *)
Definition ascii_lower (c : Z) : Z := if (65 <=? c) && (c <=? 90) then c + 32 else c.
Definition fold_is (xs w : bytes) : bool := beq (map ascii_lower xs) w.

(** jsonparse.go:596-605 and 558-569: [b] is the input from index [i] on. *)
Definition inf_nan (b : bytes) : res (value * bytes) :=
  if 3 <=? zlen b then
    if fold_is (firstn 3 b) (bs "inf") then Ok (VInf, skipn 3 b)
    else if fold_is (firstn 3 b) (bs "nan") then Ok (VNan, skipn 3 b)
    else Err ErrJsonFmt
  else Err ErrJsonFmt.

Definition signed_start (b : bytes) : bool :=
  match b with c :: _ => (c =? 45) || (c =? 43) | [] => false end.

(** [parseJsonNum] (jsonparse.go:585-621); [VNilP] is the nil result of line 620. *)
Definition parseJsonNum (E : env) (b : bytes) : res (value * bytes) :=
  match num_end b with
  | None => Ok (VNilP, [])
  | Some i =>
      if (i =? 0)%nat || ((i =? 1)%nat && signed_start b) then inf_nan (skipn i b)
      else
        let ns := firstn i b in
        if existsb (fun c => c =? 46) ns
        then Ok (VFloat (x_f64_to_f32 E (x_str2f64 E ns 0)), skipn i b)
        else Ok (VInt 0 (x_str2int E ns 0), skipn i b)
  end.

(** [parseJsonValue] on a quote (jsonparse.go:448-464). *)
Definition json_string_value (E : env) (ss : bytes) : value :=
  match x_jsontime E ss with
  | None => VRawString ss
  | Some d => VDateTime d
  end.

(** [parseJsonValue] (jsonparse.go:434-488), [parseJsonObj] (66-148) and its loop
    (84-147), [parseJsonArray] (291-343) and its loop (310-342). *)
Fixpoint js_value (E : env) (fuel : nat) (b : bytes) : res (value * bytes) :=
  match fuel with
  | O => OutOfFuel
  | S f =>
      match b with
      | [] => jerr JET_NoObjBack 0 []
      | c :: r =>
          if c =? 123 then
            match skipWB r with
            | ([], sk) => jerr JET_NoObjBack sk r
            | ((c1 :: t) as b1, _) =>
                if c1 =? 125 then Ok (VObject false [], t) else js_members E f b1 []
            end
          else if c =? 91 then
            match skipWB r with
            | ([], sk) => jerr JET_NoArrBack sk r
            | ((c1 :: t) as b1, _) =>
                if c1 =? 93 then Ok (VArray [], t) else js_elems E f b1 []
            end
          else if c =? 34 then
            do (ss, t) <- parseJsonString r; Ok (json_string_value E ss, t)
          else if c =? 116 then
            if (zlen b <? 4) || negb (beq (firstn 4 b) (bs "true")) then Err ErrJsonFmt
            else Ok (VTrue, skipn 4 b)
          else if c =? 102 then
            if (zlen b <? 5) || negb (beq (firstn 5 b) (bs "false")) then Err ErrJsonFmt
            else Ok (VFalse, skipn 5 b)
          else if c =? 110 then
            if (zlen b <? 4) || negb (beq (firstn 4 b) (bs "null")) then
              if (3 <=? zlen b) && negb (beq (firstn 3 b) (bs "nan"))
              then Ok (VNan, skipn 3 b)
              else Err ErrJsonFmt
            else Ok (VNull, skipn 4 b)
          else parseJsonNum E b
      end
  end
with js_members (E : env) (fuel : nat) (b : bytes) (acc : list (bytes * value))
  : res (value * bytes) :=
  match fuel with
  | O => OutOfFuel
  | S f =>
      match skipWB b with
      | ([], sk) => jerr JET_NoKeyStart sk b
      | (c :: r, sk) =>
          if negb (c =? 34) then jerr JET_NoKeyStart sk b
          else
            do (k, b2) <- parseJsonKey r;
            match skipWB b2 with
            | ([], sk) => jerr JET_NoKVSplit sk b2
            | (c3 :: r3, sk) =>
                if negb (c3 =? 58) then jerr JET_NoKVSplit sk b2
                else
                  do (v, b5) <- js_value E f (fst (skipWB r3));
                  match skipWB b5 with
                  | ([], sk) => jerr JET_NoObjBack sk b5
                  | (c6 :: r6, sk) =>
                      if c6 =? 44 then js_members E f r6 (acc ++ [(k, v)])
                      else if c6 =? 125 then Ok (VObject false (acc ++ [(k, v)]), r6)
                      else jerr JET_NoValueSplit sk b5
                  end
            end
      end
  end
with js_elems (E : env) (fuel : nat) (b : bytes) (acc : list value) : res (value * bytes) :=
  match fuel with
  | O => OutOfFuel
  | S f =>
      do (v, b2) <- js_value E f (fst (skipWB b));
      match skipWB b2 with
      | ([], sk) => jerr JET_NoArrBack sk b2
      | (c :: r, sk) =>
          if c =? 44 then js_elems E f r (acc ++ [v])
          else if c =? 93 then Ok (VArray (acc ++ [v]), r)
          else jerr JET_NoValueSplit sk b2
      end
  end.

(** Fuel that always suffices (JsonThms.v). *)
Definition js_fuel (b : bytes) : nat := 2 * List.length b + 2.

(** [NewValueFromJson] (jsonparse.go:410-432). *)
Definition NewValueFromJson (E : env) (b : bytes) : res value :=
  let b := fst (skipWB b) in
  do (v, tail) <- js_value E (js_fuel b) b;
  match skipWB tail with
  | ([], _) => Ok v
  | (_ :: _, sk) => jerr JET_Invalidate sk tail
  end.

(** [ErrorParseJson.Error] (jsonparse.go:54-62): whether it panics.  The slice
    expression [b[InvalidIndex:l]] needs 0 <= InvalidIndex <= l. *)
Definition error_string_ok (e : gerr) : bool :=
  match e with
  | ErrJson _ idx pb =>
      let l := zlen pb in
      let l := if idx + 32 <? l then idx + 32 else l in
      (0 <=? idx) && (idx <=? l)
  | _ => true
  end.

(** ** Loading into an existing value *)

(** [Clear] (dxvalue.go:192-216) as seen in the tree: the type stays, and so do
    [simpleV] and [ExtType]. *)
Definition clear_value (v : value) : value :=
  match v with
  | VObject _ _ => VObject false []
  | VArray _ => VArray []
  | VString _ => VString []
  | VRawString _ => VRawString []
  | VBinary e _ => VBinary e []
  | VExBinary e _ => VExBinary e []
  | v => v
  end.

(** [SetInt] (dxvalue.go:700-705) on a value that is not one of the shared constants. *)
Definition set_int (v : value) (n : Z) : value :=
  match v with VInt e _ => VInt e n | _ => VInt 0 n end.

(** [parseJsonNum2V] (jsonparse.go:549-583).  [isfloat] is recomputed at every byte, and
    at the byte where the number stops it is false: line 573 never takes the branch. *)
Definition parseJsonNum2V (E : env) (b : bytes) (v : value) : value * option gerr :=
  match num_end b with
  | None => (v, None)
  | Some i =>
      if (i =? 0)%nat || ((i =? 1)%nat && signed_start b) then
        match inf_nan (skipn i b) with
        | Ok (x, _) => (x, None)
        | Err e => (v, Some e)
        | _ => (v, Some ErrJsonFmt)
        end
      else (set_int v (x_str2int E (firstn i b) 0), None)
  end.

(** The pairs collected so far, in an object; any other receiver keeps its type, and the
    pairs are written into a field its type does not use. *)
Definition with_pairs (v : value) (kvs : list (bytes * value)) : value :=
  match v with VObject u _ => VObject u kvs | _ => v end.
Definition with_elems (v : value) (l : list value) : value :=
  match v with VArray _ => VArray l | _ => v end.

(** Loop of [parseJsonObj2V] (jsonparse.go:164-219): pairs stored and error.  A pair is
    appended before its key and value are parsed (165), assumed zeroed. *)
Fixpoint load_members (E : env) (fuel : nat) (b : bytes) (acc : list (bytes * value))
  : list (bytes * value) * res unit :=
  match fuel with
  | O => (acc, OutOfFuel)
  | S f =>
      let fresh := acc ++ [([], VNilP)] in
      match skipWB b with
      | ([], sk) => (fresh, jerr JET_NoKeyStart sk b)
      | (c :: r, sk) =>
          if negb (c =? 34) then (fresh, jerr JET_NoKeyStart sk b)
          else
            match parseJsonKey r with
            | Ok (k, b2) =>
                let keyed := acc ++ [(k, VNilP)] in
                match skipWB b2 with
                | ([], sk) => (keyed, jerr JET_NoKVSplit sk b2)
                | (c3 :: r3, sk) =>
                    if negb (c3 =? 58) then (keyed, jerr JET_NoKVSplit sk b2)
                    else
                      let b4 := fst (skipWB r3) in
                      match js_value E (js_fuel b4) b4 with
                      | Ok (v, b5) =>
                          let full := acc ++ [(k, v)] in
                          match skipWB b5 with
                          | ([], sk) => (full, jerr JET_NoObjBack sk b5)
                          | (c6 :: r6, sk) =>
                              if c6 =? 44 then load_members E f r6 full
                              else if c6 =? 125 then (full, Ok tt)
                              else (full, jerr JET_NoValueSplit sk b5)
                          end
                      | Err e => (keyed, Err e)
                      | Panic => (keyed, Panic)
                      | OutOfFuel => (keyed, OutOfFuel)
                      end
                end
            | Err e => (fresh, Err e)
            | Panic => (fresh, Panic)
            | OutOfFuel => (fresh, OutOfFuel)
            end
      end
  end.
(** Loop of [parseJsonArray2V] (jsonparse.go:361-393). *)
Fixpoint load_elems (E : env) (fuel : nat) (b : bytes) (acc : list value)
  : list value * res unit :=
  match fuel with
  | O => (acc, OutOfFuel)
  | S f =>
      let b1 := fst (skipWB b) in
      match js_value E (js_fuel b1) b1 with
      | Ok (v, b2) =>
          let full := acc ++ [v] in
          match skipWB b2 with
          | ([], sk) => (full, jerr JET_NoArrBack sk b2)
          | (c :: r, sk) =>
              if c =? 44 then load_elems E f r full
              else if c =? 93 then (full, Ok tt)
              else (full, jerr JET_NoValueSplit sk b2)
          end
      | Err e => (acc, Err e)
      | Panic => (acc, Panic)
      | OutOfFuel => (acc, OutOfFuel)
      end
  end.

(** [parseJson2Value] (jsonparse.go:490-547): the receiver afterwards and the outcome.
    The receiver is assumed not to be one of the five shared constants. *)
Definition parseJson2Value (E : env) (b : bytes) (v : value) : value * res unit :=
  match b with
  | [] => (v, jerr JET_NoObjBack 0 [])
  | c :: r =>
      if c =? 123 then
        match skipWB r with
        | ([], sk) => (v, jerr JET_NoObjBack sk r)
        | ((c1 :: t) as b1, _) =>
            if c1 =? 125 then (v, Ok tt)
            else let (kvs, o) := load_members E (js_fuel b1) b1 [] in (with_pairs v kvs, o)
        end
      else if c =? 91 then
        match skipWB r with
        | ([], sk) => (v, jerr JET_NoArrBack sk r)
        | ((c1 :: t) as b1, _) =>
            if c1 =? 93 then (v, Ok tt)
            else let (l, o) := load_elems E (js_fuel b1) b1 [] in (with_elems v l, o)
        end
      else if c =? 34 then
        match parseJsonString r with
        | Ok (ss, _) => (json_string_value E ss, Ok tt)
        | Err e => (v, Err e)
        | Panic => (v, Panic)
        | OutOfFuel => (v, OutOfFuel)
        end
      else if c =? 116 then
        if (zlen b <? 4) || negb (beq (firstn 4 b) (bs "true")) then (v, Err ErrJsonFmt)
        else (VTrue, Ok tt)
      else if c =? 102 then
        if (zlen b <? 5) || negb (beq (firstn 5 b) (bs "false")) then (v, Err ErrJsonFmt)
        else (VFalse, Ok tt)
      else if c =? 110 then
        if (zlen b <? 4) || negb (beq (firstn 4 b) (bs "null")) then
          if (3 <=? zlen b) && negb (beq (firstn 3 b) (bs "nan"))
          then (VNan, Ok tt)
          else (v, Err ErrJsonFmt)
        else (VNull, Ok tt)
      else
        match parseJsonNum2V E b v with
        | (v', None) => (v', Ok tt)
        | (v', Some e) => (v', Err e)
        end
  end.

(** [LoadFromJson] (dxvalue.go:268-276). *)
Definition LoadFromJson (E : env) (v : value) (b : bytes) : value * res unit :=
  let v := clear_value v in
  match fst (skipWB b) with
  | [] => (v, Ok tt)
  | b => parseJson2Value E b v
  end.

(** ** Writing *)

(** [JsonEscapeStyle] (jsonparse.go:638-643). *)
Inductive escape_style := JSE_NoEscape | JSE_AllEscape | JSE_OnlyAnsiChar.
Definition escape_all (s : escape_style) : bool :=
  match s with JSE_AllEscape => true | _ => false end.

(** The key written for pair (k, _) of an object with flag [u] (jsonparse.go:660-672 and
    754-765; with [JSE_NoEscape] the keys are first unescaped in place). *)
Definition json_key (E : env) (st : escape_style) (u : bool) (k : bytes) : bytes :=
  match st with
  | JSE_NoEscape => if u then k else x_unescape E k
  | _ => if u then x_escape E (escape_all st) k else k
  end.
(** jsonparse.go:681-685, 789-793. *)
Definition json_str (E : env) (st : escape_style) (s : bytes) : bytes :=
  match st with JSE_NoEscape => s | _ => x_escape E (escape_all st) s end.

(** [v.Double()] on VT_Float and VT_Double (dxvalue.go:914-917). *)
Definition float_of (E : env) (raw : Z) : Z := x_f32_to_f64 E (raw mod 2 ^ 32).

(** jsonparse.go:713-723, 823-833. *)
Definition json_date (E : env) (escDate : bool) (d : Z) : bytes :=
  if escDate
  then bs "/Date(" ++ fmt_int (to_i64 (fst (x_totime E d) * 1000)) ++ bs ")/"
  else x_fmt_time E d.

(** [Value2Json] (jsonparse.go:646-729): the bytes appended to [dst].  A nil pointer at
    the top or in an object is dereferenced (650, 675). *)
Fixpoint Value2Json (E : env) (st : escape_style) (escDate : bool) (v : value) (dst : bytes)
  : res bytes :=
  match v with
  | VNilP => Panic
  | VObject u kvs =>
      do d <- (fix go (first : bool) (l : list (bytes * value)) (dst : bytes) : res bytes :=
                 match l with
                 | [] => Ok dst
                 | (k, x) :: r =>
                     let dst := dst ++ (if first then [34] else [44; 34]) in
                     let dst := dst ++ json_key E st u k ++ [34; 58] in
                     do dst <- Value2Json E st escDate x dst;
                     go false r dst
                 end) true kvs (dst ++ [123]);
      Ok (d ++ [125])
  | VArray l =>
      do d <- (fix go (first : bool) (l : list value) (dst : bytes) : res bytes :=
                 match l with
                 | [] => Ok dst
                 | x :: r =>
                     let dst := if first then dst else dst ++ [44] in
                     do dst <- match x with
                               | VNilP => Ok (dst ++ bs "null")
                               | _ => Value2Json E st escDate x dst
                               end;
                     go false r dst
                 end) true l (dst ++ [91]);
      Ok (d ++ [93])
  | VString s => Ok (dst ++ [34] ++ json_str E st s ++ [34])
  | VRawString s => Ok (dst ++ [34] ++ s ++ [34])
  | VFloat r => Ok (dst ++ x_fmt_f64 E (float_of E r))
  | VDouble d => Ok (dst ++ x_fmt_f64 E d)
  | VTrue => Ok (dst ++ bs "true")
  | VFalse => Ok (dst ++ bs "false")
  | VInt _ n => Ok (dst ++ fmt_int n)
  | VDateTime d => Ok (dst ++ [34] ++ json_date E escDate d ++ [34])
  | VNull => Ok (dst ++ bs "null")
  | VBinary _ _ | VExBinary _ _ | VNan | VInf => Ok dst
  end.

(** [formatSpace] (jsonparse.go:740-744). *)
Fixpoint indent (level : nat) : bytes :=
  match level with O => [] | S l => 32 :: 32 :: indent l end.

(** jsonparse.go:772-786; [b[:12]] panics when there are fewer bytes (slices have no
    spare capacity here). *)
Definition format_binary (E : env) (ext : Z) (b : bytes) : res bytes :=
  if ext =? 7 then
    if zlen b <? 12 then Panic
    else Ok (bs "{""$oid"":""" ++ x_bin2hex E (firstn 12 b) ++ bs """}")
  else if ext =? 19 then
    if zlen b <? 16 then Panic
    else Ok (bs "{""Decimal128"":""" ++ x_bin2hex E (firstn 16 b) ++ bs """}")
  else
    if zlen b <? 12 then Panic
    else Ok (bs "Bin(" ++ x_bin2hex E (firstn 12 b) ++ bs ")").

(** [formatValue] (jsonparse.go:735-839). *)
Fixpoint formatValue (E : env) (st : escape_style) (escDate : bool) (level : nat) (v : value)
    (dst : bytes) : res bytes :=
  match v with
  | VNilP => Panic
  | VObject u kvs =>
      do d <- (fix go (first : bool) (l : list (bytes * value)) (dst : bytes) : res bytes :=
                 match l with
                 | [] => Ok dst
                 | (k, x) :: r =>
                     let dst := if first then dst else dst ++ [44; 13; 10] in
                     let dst := dst ++ indent (S level) ++ [34] in
                     let dst := dst ++ json_key E st u k ++ [34; 58] in
                     do dst <- formatValue E st escDate (S level) x dst;
                     go false r dst
                 end) true kvs (dst ++ [123; 13; 10]);
      Ok (d ++ [13; 10] ++ indent level ++ [125])
  | VArray l =>
      do d <- (fix go (first : bool) (l : list value) (dst : bytes) : res bytes :=
                 match l with
                 | [] => Ok dst
                 | x :: r =>
                     let dst := if first then dst else dst ++ [44; 13; 10] in
                     let dst := dst ++ indent (S level) in
                     do dst <- match x with
                               | VNilP => Ok (dst ++ bs "null")
                               | _ => formatValue E st escDate (S level) x dst
                               end;
                     go false r dst
                 end) true l (dst ++ [91; 13; 10]);
      Ok (d ++ [13; 10] ++ indent level ++ [93])
  | VString s => Ok (dst ++ [34] ++ json_str E st s ++ [34])
  | VRawString s => Ok (dst ++ [34] ++ s ++ [34])
  | VFloat r => Ok (dst ++ x_fmt_f64 E (float_of E r))
  | VDouble d => Ok (dst ++ x_fmt_f64 E d)
  | VTrue => Ok (dst ++ bs "true")
  | VFalse => Ok (dst ++ bs "false")
  | VInt _ n => Ok (dst ++ fmt_int n)
  | VDateTime d => Ok (dst ++ [34] ++ json_date E escDate d ++ [34])
  | VNull => Ok (dst ++ bs "null")
  | VBinary ext b => do x <- format_binary E ext b; Ok (dst ++ x)
  | VExBinary _ _ | VNan | VInf => Ok dst
  end.

(** [Value2FormatJson] (jsonparse.go:731-733). *)
Definition Value2FormatJson (E : env) (st : escape_style) (escDate : bool) (v : value)
    (dst : bytes) : res bytes := formatValue E st escDate 0 v dst.
