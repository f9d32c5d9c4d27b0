(** The JSON decoder on the heap: where it allocates and what it writes into the cells.  JsonModel.v
    has the same decoder on trees and the functions that only read (strings, keys, numbers). *)
From Coq Require Import String.
From Verif Require Import Base Values JsonModel HeapModel MsgLoadModel.

Section JsonLoad.
Variable E : env.
Variable G : nat -> nat.

(** The cases of [parseJsonValue] that are neither objects nor arrays (jsonparse.go:448-487): what is
    read.  The input is not empty. *)
Definition js_scalar (b : bytes) : res (value * bytes) :=
  match b with
  | [] => jerr JET_NoObjBack 0 []
  | c :: r =>
      if c =? 34 then do (ss, t) <- parseJsonString r; Ok (json_string_value E ss, t)
      else if c =? 116 then
        if (zlen b <? 4) || negb (beq (firstn 4 b) (bs "true")) then Err ErrJsonFmt
        else Ok (VTrue, skipn 4 b)
      else if c =? 102 then
        if (zlen b <? 5) || negb (beq (firstn 5 b) (bs "false")) then Err ErrJsonFmt
        else Ok (VFalse, skipn 5 b)
      else if c =? 110 then
        if (zlen b <? 4) || negb (beq (firstn 4 b) (bs "null")) then
          if (3 <=? zlen b) && negb (beq (firstn 3 b) (bs "nan"))
          then Ok (VNan, skipn 3 b)
          else Err ErrJsonFmt
        else Ok (VNull, skipn 4 b)
      else parseJsonNum E b
  end.
(** What is built from it: the [getValue] call and the assignment after it, or one of the shared
    constants. *)
Definition jplace (s : st) (c : option nat) (v : value) : ptr * st :=
  match v with
  | VRawString x =>                                          (* 457-458 *)
      let (r, s1) := getValue G s c TRaw in (Some r, set_cell s1 r (w_str (hp s1 r) x))
  | VDateTime d =>                                           (* 460-461 *)
      let (r, s1) := getValue G s c TDateTime in (Some r, SetDouble s1 r d)
  | VTrue => (Some loc_true, s)                              (* 469 *)
  | VFalse => (Some loc_false, s)                            (* 475 *)
  | VNan => (Some loc_nan, s)                                (* 481, 602 *)
  | VNull => (Some loc_null, s)                              (* 485 *)
  | VInf => (Some loc_inf, s)                                (* 599 *)
  | VFloat n =>                                              (* 610-612 *)
      let (r, s1) := getValue G s c TFloat in (Some r, SetFloat s1 r n)
  | VInt _ n =>                                              (* 614-616 *)
      let (r, s1) := getValue G s c TInt in (Some r, SetInt s1 r n)
  | _ => (None, s)                                           (* 620 *)
  end.

Definition hj_err (s : st) (t : json_err) (i : Z) (b : bytes) : hres := Ok (s, inl (ErrJson t i b)).

(** [parseJsonValue] (jsonparse.go:434-488), [parseJsonObj] (66-148) and its loop (84-147),
    [parseJsonArray] (291-343) and its loop (310-342), with the fuel of [js_value].  A pair is added to
    a new object after its value instead of before its key (85); when the parse fails in between, the
    object is dropped by the callers. *)
Fixpoint hj_value (fuel : nat) (s : st) (c : option nat) (b : bytes) {struct fuel} : hres :=
  match fuel with
  | O => OutOfFuel
  | S f =>
      match b with
      | [] => hj_err s JET_NoObjBack 0 []
      | x :: r =>
          if x =? 123 then
            match skipWB r with
            | ([], sk) => hj_err s JET_NoObjBack sk r
            | ((c1 :: t) as b1, _) =>
                let (l, s1) := getValue G s c TObject in
                if c1 =? 125 then Ok (s1, inr (Some l, t)) else hj_members f s1 l (kids_cache s1 c l) b1
            end
          else if x =? 91 then
            match skipWB r with
            | ([], sk) => hj_err s JET_NoArrBack sk r
            | ((c1 :: t) as b1, _) =>
                let (l, s1) := getValue G s c TArray in
                if c1 =? 93 then Ok (s1, inr (Some l, t)) else hj_elems f s1 l (kids_cache s1 c l) b1
            end
          else
            match js_scalar b with
            | Ok (v, t) => let (p, s1) := jplace s c v in Ok (s1, inr (p, t))
            | Err e => Ok (s, inl e)
            | Panic => Panic
            | OutOfFuel => OutOfFuel
            end
      end
  end
with hj_members (fuel : nat) (s : st) (l : nat) (c : option nat) (b : bytes) {struct fuel} : hres :=
  match fuel with
  | O => OutOfFuel
  | S f =>
      match skipWB b with
      | ([], sk) => hj_err s JET_NoKeyStart sk b
      | (x :: r, sk) =>
          if negb (x =? 34) then hj_err s JET_NoKeyStart sk b
          else
            match parseJsonKey r with
            | Ok (k, b2) =>
                match skipWB b2 with
                | ([], sk) => hj_err s JET_NoKVSplit sk b2
                | (c3 :: r3, sk) =>
                    if negb (c3 =? 58) then hj_err s JET_NoKVSplit sk b2
                    else
                      do (s1, y) <- hj_value f s c (fst (skipWB r3));
                      match y with
                      | inl e => Ok (s1, inl e)
                      | inr (p, b5) =>
                          let s2 := set_cell s1 l (push_kv G (hp s1 l) k p) in
                          match skipWB b5 with
                          | ([], sk) => hj_err s2 JET_NoObjBack sk b5
                          | (c6 :: r6, sk) =>
                              if c6 =? 44 then hj_members f s2 l c r6
                              else if c6 =? 125 then Ok (s2, inr (Some l, r6))
                              else hj_err s2 JET_NoValueSplit sk b5
                          end
                      end
                end
            | Err e => Ok (s, inl e)
            | Panic => Panic
            | OutOfFuel => OutOfFuel
            end
      end
  end
with hj_elems (fuel : nat) (s : st) (l : nat) (c : option nat) (b : bytes) {struct fuel} : hres :=
  match fuel with
  | O => OutOfFuel
  | S f =>
      do (s1, y) <- hj_value f s c (fst (skipWB b));
      match y with
      | inl e => Ok (s1, inl e)
      | inr (p, b2) =>
          let s2 := set_cell s1 l (w_arr (hp s1 l) (c_arr (hp s1 l) ++ [p])) in
          match skipWB b2 with
          | ([], sk) => hj_err s2 JET_NoArrBack sk b2
          | (x :: r, sk) =>
              if x =? 44 then hj_elems f s2 l c r
              else if x =? 93 then Ok (s2, inr (Some l, r))
              else hj_err s2 JET_NoValueSplit sk b2
          end
      end
  end.

(** [NewValueFromJson] (jsonparse.go:410-432); [uc] as for [h_NewValueFromMsgPack]. *)
Definition h_NewValueFromJson (s : st) (uc : option (option nat)) (b : bytes) : res (st * (gerr + ptr)) :=
  let '(c, s0) := match uc with
                  | None => (None, s)
                  | Some ch => let (k, s0) := getCache s ch in (Some k, s0)
                  end in
  let b := fst (skipWB b) in
  do (s1, x) <- hj_value (js_fuel b) s0 c b;
  Ok (s1, match x with
          | inl e => inl e
          | inr (p, tail) =>
              match skipWB tail with
              | ([], _) => inr p
              | (_ :: _, sk) => inl (ErrJson JET_Invalidate sk tail)
              end
          end).

(** ** [LoadFromJson] *)
(** [v.fobject.getKv()] (dxvalue.go:48-56): the next slot of the backing array becomes visible with
    whatever it holds. *)
Definition next_kv (c : cell) : bytes * ptr := match c_spare c with kv :: _ => kv | [] => empty_kv end.
Definition expose (c : cell) : cell := push_kv G c (fst (next_kv c)) (snd (next_kv c)).
(** ... and after [kv.K = k]. *)
Definition expose_key (c : cell) (k : bytes) : cell := push_kv G c k (snd (next_kv c)).

(** Loop of [parseJsonObj2V] (jsonparse.go:164-219), whatever the type of the receiver [l].  The slot
    of the pair is taken before its key is read: that is visible when the load fails.  While the value
    is read the slot is not yet visible here; in the code it is, which only makes a difference for a
    receiver that is itself handed out again by its cache. *)
Fixpoint hl_members (fuel : nat) (s : st) (l : nat) (b : bytes) : res (st * option gerr) :=
  match fuel with
  | O => OutOfFuel
  | S f =>
      let stop c t i b := Ok (set_cell s l c, Some (ErrJson t i b)) in
      match skipWB b with
      | ([], sk) => stop (expose (hp s l)) JET_NoKeyStart sk b
      | (x :: r, sk) =>
          if negb (x =? 34) then stop (expose (hp s l)) JET_NoKeyStart sk b
          else
            match parseJsonKey r with
            | Ok (k, b2) =>
                match skipWB b2 with
                | ([], sk) => stop (expose_key (hp s l) k) JET_NoKVSplit sk b2
                | (c3 :: r3, sk) =>
                    if negb (c3 =? 58) then stop (expose_key (hp s l) k) JET_NoKVSplit sk b2
                    else
                      let b4 := fst (skipWB r3) in
                      do (s1, y) <- hj_value (js_fuel b4) s (c_own (hp s l)) b4;
                      match y with
                      | inl e => Ok (set_cell s1 l (push_kv G (hp s1 l) k None), Some e)
                      | inr (p, b5) =>
                          let s2 := set_cell s1 l (push_kv G (hp s1 l) k p) in
                          match skipWB b5 with
                          | ([], sk) => Ok (s2, Some (ErrJson JET_NoObjBack sk b5))
                          | (c6 :: r6, sk) =>
                              if c6 =? 44 then hl_members f s2 l r6
                              else if c6 =? 125 then Ok (s2, None)
                              else Ok (s2, Some (ErrJson JET_NoValueSplit sk b5))
                          end
                      end
                end
            | Err e => Ok (set_cell s l (expose_key (hp s l) []), Some e)
            | Panic => Panic
            | OutOfFuel => OutOfFuel
            end
      end
  end.
(** Loop of [parseJsonArray2V] (jsonparse.go:361-393). *)
Fixpoint hl_elems (fuel : nat) (s : st) (l : nat) (b : bytes) : res (st * option gerr) :=
  match fuel with
  | O => OutOfFuel
  | S f =>
      let b1 := fst (skipWB b) in
      do (s1, y) <- hj_value (js_fuel b1) s (c_own (hp s l)) b1;
      match y with
      | inl e => Ok (s1, Some e)
      | inr (p, b2) =>
          let s2 := set_cell s1 l (w_arr (hp s1 l) (c_arr (hp s1 l) ++ [p])) in
          match skipWB b2 with
          | ([], sk) => Ok (s2, Some (ErrJson JET_NoArrBack sk b2))
          | (x :: r, sk) =>
              if x =? 44 then hl_elems f s2 l r
              else if x =? 93 then Ok (s2, None)
              else Ok (s2, Some (ErrJson JET_NoValueSplit sk b2))
          end
      end
  end.

(** The assignments of [parseJson2Value] (jsonparse.go:513-545) and [parseJsonNum2V] (549-583), which
    stores every number with [SetInt]. *)
Definition jput (s : st) (l : nat) (v : value) : st :=
  match v with
  | VRawString x => let s1 := Reset s l TRaw in set_cell s1 l (w_str (hp s1 l) x)
  | VDateTime d => SetDouble (Reset s l TDateTime) l d
  | VTrue => Reset s l TTrue | VFalse => Reset s l TFalse
  | VNull => Reset s l TNull | VNan => Reset s l TNan | VInf => Reset s l TInf
  | VInt _ n => SetInt s l n
  | _ => s
  end.
(** [parseJsonNum2V]: what is read; [VNilP] when the input ends inside the number (582). *)
Definition js_num2v (b : bytes) : res value :=
  match num_end b with
  | None => Ok VNilP
  | Some i =>
      if (i =? 0)%nat || ((i =? 1)%nat && signed_start b) then do (x, _) <- inf_nan (skipn i b); Ok x
      else Ok (VInt 0 (x_str2int E (firstn i b) 0))
  end.
Definition is_num_start (c : Z) : bool := negb ((c =? 34) || (c =? 116) || (c =? 102) || (c =? 110)).

(** [parseJson2Value] (jsonparse.go:490-547). *)
Definition h_parseJson2Value (s : st) (l : nat) (b : bytes) : res (st * option gerr) :=
  match b with
  | [] => Ok (s, Some (ErrJson JET_NoObjBack 0 []))
  | x :: r =>
      if x =? 123 then
        match skipWB r with
        | ([], sk) => Ok (s, Some (ErrJson JET_NoObjBack sk r))
        | ((c1 :: _) as b1, _) => if c1 =? 125 then Ok (s, None) else hl_members (js_fuel b1) s l b1
        end
      else if x =? 91 then
        match skipWB r with
        | ([], sk) => Ok (s, Some (ErrJson JET_NoArrBack sk r))
        | ((c1 :: _) as b1, _) => if c1 =? 93 then Ok (s, None) else hl_elems (js_fuel b1) s l b1
        end
      else
        match (if is_num_start x then js_num2v b else do (v, _) <- js_scalar b; Ok v) with
        | Ok v => Ok (jput s l v, None)
        | Err e => Ok (s, Some e)
        | Panic => Panic
        | OutOfFuel => OutOfFuel
        end
  end.

(** [LoadFromJson] (dxvalue.go:268-276). *)
Definition h_LoadFromJson (s : st) (l : nat) (b : bytes) : res (st * option gerr) :=
  do s1 <- Clear s l;
  match fst (skipWB b) with
  | [] => Ok (s1, None)
  | b => h_parseJson2Value s1 l b
  end.
End JsonLoad.
