(** The MessagePack decoder on the heap: where it allocates, what it writes into the cells and what
    it does to the cache when the message is bad.  MsgPackModel.v has the same decoder on trees. *)
From Verif Require Import Base Values HeapModel MsgPackModel.

Definition w_bin (c : cell) (v : bytes) : cell :=
  mkCell (c_dt c) (c_ext c) (c_unesc c) (c_kvs c) (c_spare c) (c_own c) (c_sv c) (c_str c) v (c_arr c).

Section Load.
Variable E : env.
Variable G : nat -> nat.

(** A decoding step: the new state with the error, or with the value and the rest of the input. *)
Definition hres := res (st * (gerr + ptr * bytes)).

(** The building half of the scalar cases of [parseMsgPackValue] (msgpackparse.go:164-327): for each
    kind of scalar the [getValue] call and the assignment that follows it.  The reading half is
    [parseScalar] (MsgPackModel.v), which yields the scalar to be built; in the code too, each case
    reads first and calls [getValue] after the last error return.  [sharebinary] only decides whether
    bytes are shared with the input and is not modelled. *)
Definition place (s : st) (c : option nat) (v : value) : ptr * st :=
  match v with
  | VString x =>                                             (* 164-175 *)
      let (r, s1) := getValue G s c TString in (Some r, set_cell s1 r (w_str (hp s1 r) x))
  | VInt _ n =>                                              (* 180-239 *)
      let (r, s1) := getValue G s c TInt in (Some r, SetInt s1 r n)
  | VFloat n =>                                              (* 240-247 *)
      let (r, s1) := getValue G s c TFloat in (Some r, SetFloat s1 r n)
  | VDouble n =>                                             (* 248-255 *)
      let (r, s1) := getValue G s c TDouble in (Some r, SetDouble s1 r n)
  | VTrue => (Some loc_true, s)                              (* 256-267 *)
  | VFalse => (Some loc_false, s)
  | VNull => (Some loc_null, s)
  | VBinary _ x =>                                           (* 268-285 *)
      let (r, s1) := getValue G s c TBinary in (Some r, set_cell s1 r (w_bin (hp s1 r) x))
  | VDateTime d =>                                           (* 297-318 *)
      let (r, s1) := getValue G s c TDateTime in (Some r, SetDouble s1 r d)
  | VExBinary _ x =>                                         (* 319-325 *)
      let (r, s1) := getValue G s c TExBinary in (Some r, set_cell s1 r (w_bin (hp s1 r) x))
  | _ => (None, s)                                           (* code 0xc1, 327 *)
  end.
Definition hm_scalar (s : st) (c : option nat) (code : Z) (b : bytes) : hres :=
  match parseScalar E code b with
  | Ok (v, t) => let (p, s1) := place s c v in Ok (s1, inr (p, t))
  | Err e => Ok (s, inl e)
  | Panic => Panic
  | OutOfFuel => OutOfFuel
  end.

(** [if c == nil { c = result.ValueCache() }] (msgpackparse.go:82-84, 122-124). *)
Definition kids_cache (s : st) (c : option nat) (r : nat) : option nat :=
  match c with None => c_own (hp s r) | Some k => Some k end.
(** [FreeValue(result); return nil,b,err]. *)
Definition give_up (s : st) (r : nat) (e : gerr) : hres := do s1 <- FreeValue s (Some r); Ok (s1, inl e).

(** [parseMsgPackValue], [parseMsgPackArray] and [parseMsgPackObject] (msgpackparse.go:158-183,
    113-135, 67-110), with the same fuel as [mp_value]. *)
Fixpoint hm_value (fuel : nat) (s : st) (c : option nat) (b : bytes) {struct fuel} : hres :=
  match fuel with
  | O => OutOfFuel
  | S f =>
    match b with
    | [] => Ok (s, inl ErrUnKnownCode)
    | code :: b =>
      if IsStr code then hm_scalar s c code b
      else if IsArray code then
        match parseArrLen code b with
        | Ok (n, b) =>
            let (r, s1) := getValue G s c TArray in
            if n =? 0 then Ok (s1, inr (Some r, b)) else hm_array f s1 r (kids_cache s1 c r) n b
        | Err e => Ok (s, inl e)
        | Panic => Panic
        | OutOfFuel => OutOfFuel
        end
      else if IsMap code then
        match parseMapLen code b with
        | Ok (n, b) =>
            if n =? 0 then let (r, s1) := getValue G s c TObject in Ok (s1, inr (Some r, b))
            else match b with
                 | [] => Panic                               (* b[0], line 75 *)
                 | k :: _ =>
                     if IsStr k then
                       let (r, s1) := getValue G s c TObject in hm_map f s1 r (kids_cache s1 c r) n b
                     else Ok (s, inl ErrMapKey)
                 end
        | Err e => Ok (s, inl e)
        | Panic => Panic
        | OutOfFuel => OutOfFuel
        end
      else hm_scalar s c code b
    end
  end
with hm_array (fuel : nat) (s : st) (r : nat) (c : option nat) (n : Z) (b : bytes) {struct fuel} : hres :=
  match fuel with
  | O => OutOfFuel
  | S f =>
    if n <=? 0 then Ok (s, inr (Some r, b))
    else
      do (s1, x) <- hm_value f s c b;
      match x with
      | inl e => give_up s1 r e
      | inr (p, b) => hm_array f (set_cell s1 r (w_arr (hp s1 r) (c_arr (hp s1 r) ++ [p]))) r c (n - 1) b
      end
  end
with hm_map (fuel : nat) (s : st) (r : nat) (c : option nat) (n : Z) (b : bytes) {struct fuel} : hres :=
  match fuel with
  | O => OutOfFuel
  | S f =>
    if n <=? 0 then Ok (s, inr (Some r, b))
    else match b with
         | [] => give_up s r ErrUnKnownCode
         | code :: b =>
             match parseStr code b with
             | Ok (k, b) =>
                 do (s1, x) <- hm_value f s c b;
                 match x with
                 | inl e => give_up s1 r e
                 | inr (p, b) => hm_map f (SetKeyValue E G s1 r k p) r c (n - 1) b
                 end
             | Err e => give_up s r e
             | Panic => Panic
             | OutOfFuel => OutOfFuel
             end
         end
  end.

(** [NewValueFromMsgPack] (msgpackparse.go:487-499); [uc] as for [Clone]: no cache, or a cache from
    the pool. *)
Definition h_NewValueFromMsgPack (s : st) (uc : option (option nat)) (b : bytes)
  : res (st * (gerr + ptr)) :=
  let '(c, s0) := match uc with
                  | None => (None, s)
                  | Some ch => let (k, s0) := getCache s ch in (Some k, s0)
                  end in
  do (s1, x) <- hm_value (mp_fuel b) s0 c b;
  Ok (s1, match x with inl e => inl e | inr (p, _) => inr p end).

(** ** [LoadFromMsgPack] *)
(** The scalar cases of [parseMsgPack2Value] (msgpackparse.go:335-484), building half. *)
Definition put (s : st) (l : nat) (v : value) : st :=
  match v with
  | VString x => set_cell s l (w_str (hp s l) x)             (* 335-344 *)
  | VInt _ n => SetInt s l n                                 (* 349-400 *)
  | VFloat n => SetFloat s l n                               (* 401-407 *)
  | VDouble n | VDateTime n => SetDouble s l n               (* 408-414, 456-474 *)
  | VTrue => Reset s l TTrue                                 (* 415-426 *)
  | VFalse => Reset s l TFalse
  | VNull => Reset s l TNull
  | VBinary _ x | VExBinary _ x =>                           (* 427-443, 475-481 *)
      set_cell s l (w_bin (hp s l) (c_bin (hp s l) ++ x))
  | _ => s
  end.

(** The loops of [parseMsgPackArray2V] (msgpackparse.go:149-155) and [parseMsgPackObject2v]
    (msgpackparse.go:44-63): no [FreeValue], the receiver keeps what was stored so far. *)
Fixpoint load_array (fuel : nat) (s : st) (l : nat) (c : option nat) (n : Z) (b : bytes)
  : res (st * option gerr) :=
  match fuel with
  | O => OutOfFuel
  | S f =>
    if n <=? 0 then Ok (s, None)
    else
      do (s1, x) <- hm_value f s c b;
      match x with
      | inl e => Ok (s1, Some e)
      | inr (p, b) => load_array f (set_cell s1 l (w_arr (hp s1 l) (c_arr (hp s1 l) ++ [p]))) l c (n - 1) b
      end
  end.
Fixpoint load_map (fuel : nat) (s : st) (l : nat) (c : option nat) (n : Z) (b : bytes)
  : res (st * option gerr) :=
  match fuel with
  | O => OutOfFuel
  | S f =>
    if n <=? 0 then Ok (s, None)
    else match b with
         | [] => Ok (s, Some ErrUnKnownCode)
         | code :: b =>
             match parseStr code b with
             | Ok (k, b) =>
                 do (s1, x) <- hm_value f s c b;
                 match x with
                 | inl e => Ok (s1, Some e)
                 | inr (p, b) => load_map f (SetKeyValue E G s1 l k p) l c (n - 1) b
                 end
             | Err e => Ok (s, Some e)
             | Panic => Panic
             | OutOfFuel => OutOfFuel
             end
         end
  end.

(** [parseMsgPack2Value] (msgpackparse.go:330-485); the rest of the input is not used by its caller. *)
Definition parseMsgPack2Value (fuel : nat) (s : st) (l : nat) (b : bytes) : res (st * option gerr) :=
  match b with
  | [] => Ok (s, Some ErrUnKnownCode)
  | code :: b =>
    let scalar :=
      match parseScalar E code b with
      | Ok (v, _) => Ok (put s l v, None)
      | Err e => Ok (s, Some e)
      | Panic => Panic
      | OutOfFuel => OutOfFuel
      end in
    if IsStr code then scalar
    else if IsArray code then                                (* parseMsgPackArray2V, 137-156 *)
      match parseArrLen code b with
      | Ok (n, b) => if n =? 0 then Ok (s, None) else load_array fuel (Reset s l TArray) l (c_own (hp s l)) n b
      | Err e => Ok (s, Some e)
      | Panic => Panic
      | OutOfFuel => OutOfFuel
      end
    else if IsMap code then                                  (* parseMsgPackObject2v, 28-65 *)
      match parseMapLen code b with
      | Ok (n, b) =>
          if n =? 0 then Ok (s, None)
          else match b with
               | [] => Panic                                 (* b[0], line 37 *)
               | k :: _ => if IsStr k then load_map fuel s l (c_own (hp s l)) n b
                           else Ok (s, Some ErrMapKey)
               end
      | Err e => Ok (s, Some e)
      | Panic => Panic
      | OutOfFuel => OutOfFuel
      end
    else scalar
  end.

(** [LoadFromMsgPack] (dxvalue.go:259-266). *)
Definition LoadFromMsgPack (s : st) (l : nat) (b : bytes) : res (st * option gerr) :=
  do s1 <- Clear s l;
  match b with
  | [] => Ok (s1, None)
  | _ => parseMsgPack2Value (mp_fuel b) s1 l b
  end.
End Load.
