(** BSON decoding as it works on memory: [NewValueFromBson] with or without cache, and
    [LoadFromBson] into an existing value (bson_parse.go, dxvalue.go).  The children are attached
    first and filled afterwards. *)
From Verif Require Import Base Values HeapModel MsgLoadModel ReflectModel.
From Verif Require BsonModel.
Import BsonModel (BSON_Double, BSON_String, BSON_EmbeddedDocument, BSON_Array, BSON_Binary, BSON_ObjectID,
  BSON_Boolean, BSON_DateTime, BSON_Int32, BSON_Timestamp, BSON_Int64, BSON_Decimal128, bson_instant, bs_fuel,
  take, le32, le64).

(** [value.DataType = t; value.ExtType = x] (bson_parse.go:177-178, 204-205, ...). *)
Definition w_kind (c : cell) (t : vtype) (x : Z) : cell :=
  mkCell t x (c_unesc c) (c_kvs c) (c_spare c) (c_own c) (c_sv c) (c_str c) (c_bin c) (c_arr c).

Section BsonLoad.
Variable E : env.
Variable G : nat -> nat.

(** [parseValue] (bson_parse.go:158-255) for the attached cell [x]: the state, and the error or the
    number of bytes.  The assignments made before an error stay. *)
Definition hb_value (s : st) (x : nat) (btype : Z) (b : bytes) : res (st * (gerr + Z)) :=
  if btype =? BSON_Double then do u <- le64 b; Ok (SetDouble s x u, inr 8)
  else if btype =? BSON_String then
    do n <- le32 b;
    if n <=? 0 then Panic
    else do t <- take (Z.to_nat (3 + n)) b; Ok (SetString s x (skipn 4 t), inr (4 + n))
  else if btype =? BSON_Binary then
    let s1 := set_cell s x (w_kind (hp s x) TExBinary BSON_Binary) in
    do n <- le32 b;
    match skipn 4 b with
    | [] => Panic
    | (sub :: _) as b1 =>
        if sub =? 2 then
          if (length b1 <? 5)%nat then Panic else
          let b2 := skipn 5 b1 in
          do n <- le32 b2;
          if (length b2 <? 9)%nat then Panic else
          let b3 := skipn 9 b2 in
          if zlen b3 <? n then Ok (s1, inl ErrInvalidBSON)
          else
            do y <- take (Z.to_nat n) b3;
            Ok (SetBinary (set_cell s1 x (w_kind (hp s1 x) TBinary 0)) x y, inr (9 + n))
        else do y <- take (Z.to_nat (n + 1)) b1; Ok (SetBinary s1 x y, inr (4 + (n + 1)))
    end
  else if btype =? BSON_ObjectID then
    do y <- take 12 b; Ok (SetBinary (set_cell s x (w_kind (hp s x) TBinary BSON_ObjectID)) x y, inr 12)
  else if btype =? BSON_Boolean then
    match b with
    | [] => Panic
    | y :: _ => Ok (set_cell s x (w_dt (hp s x) (if y =? 1 then TTrue else TFalse)), inr 1)
    end
  else if btype =? BSON_DateTime then
    do u <- le64 b; Ok (SetTime E s x (bson_instant u), inr 8)
  else if btype =? BSON_Int32 then do u <- le32 b; Ok (SetInt s x u, inr 4)
  else if btype =? BSON_Timestamp then
    do u <- le64 b; Ok (set_cell s x (w_sv (w_kind (hp s x) TInt BSON_Timestamp) u), inr 8)
  else if btype =? BSON_Int64 then do u <- le64 b; Ok (SetInt s x (to_i64 u), inr 8)
  else if btype =? BSON_Decimal128 then
    do y <- take 16 b; Ok (SetBinary (set_cell s x (w_kind (hp s x) TBinary BSON_Decimal128)) x y, inr 16)
  else Ok (s, inr 0).

(** The cell for one element: [SetKeyCached] in a document, [SetIndexCached] in an array. *)
Definition hb_slot (arr : bool) (s : st) (l : nat) (key : bytes) (idx : Z) (t : vtype) (c : option nat) : res (nat * st) :=
  if arr then Ok (SetIndexCached G s l idx t c) else SetKeyCached E G s l key t c.

(** [parseBsonDocument] (bson_parse.go:24-88) and [parseBsonArray] (91-156) into the cell [l]; see
    [BsonModel.bs_doc] for the merging of the two. *)
Fixpoint hb_doc (fuel : nat) (arr : bool) (s : st) (l : nat) (c : option nat) (b : bytes) {struct fuel}
  : res (st * (gerr + Z)) :=
  match fuel with
  | O => OutOfFuel
  | S f =>
    if negb arr && (zlen b <=? 4) then Ok (s, inl ErrBadBSONDocLen)
    else
      do docLen <- le32 b;
      if zlen b <? docLen then Ok (s, inl ErrBadBSONDocLen)
      else
        do (s1, e) <- hb_loop f arr s l c b docLen 4;
        Ok (s1, match e with Some e => inl e | None => inr docLen end)
  end
with hb_loop (fuel : nat) (arr : bool) (s : st) (l : nat) (c : option nat) (b : bytes) (docLen idx : Z) {struct fuel}
  : res (st * option gerr) :=
  match fuel with
  | O => OutOfFuel
  | S f =>
    if docLen <=? idx then Ok (s, None)
    else
      match skipn (Z.to_nat idx) b with
      | [] => Panic
      | btype :: b1 =>
        match index_byte b1 0 with
        | None => Ok (s, Some ErrInvalidBSON)
        | Some ke =>
          let key := firstn ke b1 in
          let b2 := skipn (S ke) b1 in
          let ai := if arr then x_str2int E key (-1) else 0 in
          if arr && (ai =? -1) then Ok (s, Some ErrInvalidArrayBsonIndex)
          else
            do (s1, r) <-
              (if btype =? BSON_Array then
                 do (x, s0) <- hb_slot arr s l key ai TArray c; hb_doc f true s0 x c b2
               else if btype =? BSON_EmbeddedDocument then
                 do (x, s0) <- hb_slot arr s l key ai TObject c; hb_doc f false s0 x c b2
               else
                 do (x, s0) <- hb_slot arr s l key ai TNull c; hb_value s0 x btype b2);
            match r with
            | inl e => Ok (s1, Some e)
            | inr n =>
              let idx' := idx + 1 + Z.of_nat ke + 1 + n in
              if (idx' =? docLen - 1) &&
                 match nth_error b (Z.to_nat idx') with Some 0 => true | _ => false end
              then Ok (s1, None)
              else hb_loop f arr s1 l c b docLen idx'
            end
        end
      end
  end.

(** [NewValueFromBson] (bson_parse.go:257-270); [uc] as in [h_NewValueFromMsgPack]. *)
Definition h_NewValueFromBson (s : st) (uc : option (option nat)) (b : bytes) : res (st * (gerr + ptr)) :=
  let '(c, s0) := match uc with
                  | None => (None, s)
                  | Some ch => let (k, s0) := getCache s ch in (Some k, s0)
                  end in
  let (root, s1) := getValue G s0 c TObject in
  do (s2, r) <- hb_doc (bs_fuel b) false s1 root c b;
  Ok (s2, match r with inl e => inl e | inr _ => inr (Some root) end).

(** [LoadFromBson] (dxvalue.go:309-316); [v.ownercache] is read after [Clear]. *)
Definition h_LoadFromBson (s : st) (l : nat) (b : bytes) : res (st * option gerr) :=
  do s1 <- Clear s l;
  match b with
  | [] => Ok (s1, None)
  | _ =>
      do (s2, r) <- hb_doc (bs_fuel b) false s1 l (c_own (hp s1 l)) b;
      Ok (s2, match r with inl e => Some e | inr _ => None end)
  end.
End BsonLoad.
