(** Heap-level model of dxvalue.go and cache.go: cells with all the fields of [DxValue],
    pointers, the five shared constants, caches and the pool.

    Simplifications.
    - [farr] has no hidden capacity: the code only ever shrinks it or appends to it, so slots
      beyond the length are never exposed.  [strkvs] keeps its hidden slots ([c_spare]), because
      [getKv] (dxvalue.go:48-56) re-exposes them.
    - When the cells of a cache are moved by [append] (cache.go:29) the old cells stay where they
      are (live pointers refer to them) and the copies own separate pair lists; in Go the stale
      copy of a cell shares the backing array of [strkvs]/[farr] with the original.
    - In [SetKeyCached] the new pair is filled after [c.getValue] instead of before; this only
      affects such stale copies.
    - Stack exhaustion on cyclic graphs is the outcome [OutOfFuel] of the fuelled functions. *)
From Verif Require Import Base Values.

(** [ValueType] (dxvalue.go:14-31), restricted to the named constants. *)
Inductive vtype :=
| TObject | TArray | TString | TRaw | TInt | TFloat | TDouble | TDateTime
| TBinary | TExBinary | TNull | TTrue | TFalse | TNan | TInf.

(** The [iota] numbering (dxvalue.go:15-31), used by the range comparisons. *)
Definition vt_code (t : vtype) : Z :=
  match t with
  | TObject => 0 | TArray => 1 | TString => 2 | TRaw => 3 | TInt => 4 | TFloat => 5
  | TDouble => 6 | TDateTime => 7 | TBinary => 8 | TExBinary => 9 | TNull => 10
  | TTrue => 11 | TFalse => 12 | TNan => 13 | TInf => 14
  end.
Definition vt_eqb (a b : vtype) : bool := vt_code a =? vt_code b.

(** [*DxValue]: [None] is nil. *)
Definition ptr := option nat.

(** [type DxValue struct] (dxvalue.go:146-155); [c_unesc], [c_kvs], [c_spare] are the fields of
    [fobject] (dxvalue.go:43-46), [c_sv] is [simpleV] read as a little-endian uint64. *)
Record cell := mkCell {
  c_dt : vtype; c_ext : Z; c_unesc : bool;
  c_kvs : list (bytes * ptr); c_spare : list (bytes * ptr);
  c_own : option nat; c_sv : Z; c_str : bytes; c_bin : bytes; c_arr : list ptr }.

(** The zero [DxValue{}]. *)
Definition zero_cell : cell := mkCell TObject 0 false [] [] None 0 [] [] [].

(** [type ValueCache struct] (cache.go:11-14): [ca_slots] are the cells of the backing array of
    [Value] up to its capacity, [ca_len] is [len(Value)]. *)
Record cache := mkCache { ca_root : bool; ca_slots : list nat; ca_len : nat }.
Definition zero_cache : cache := mkCache false [] 0.

(** Program state: cells, caches, next free addresses, and the content of
    [ValueCachePool] (cache.go:8). *)
Record st := mkSt {
  hp : nat -> cell; nx : nat;
  cs : nat -> cache; nc : nat;
  pl : list nat }.

(** The shared constants (jsonparse.go:402-406) are the cells 0..4. *)
Definition loc_true : nat := 0.  Definition loc_false : nat := 1.
Definition loc_null : nat := 2.  Definition loc_nan : nat := 3.
Definition loc_inf : nat := 4.
(** [ReadOnly] (dxvalue.go:891-893): pointer comparison with the five constants. *)
Definition ReadOnly (l : nat) : bool := (l <? 5)%nat.
Definition const_type (l : nat) : vtype :=
  match l with
  | O => TTrue | S O => TFalse | S (S O) => TNull | S (S (S O)) => TNan | _ => TInf
  end.
Definition const_cell (t : vtype) : cell := mkCell t 0 false [] [] None 0 [] [] [].
(** State after package initialisation. *)
Definition st0 : st :=
  mkSt (fun l => if ReadOnly l then const_cell (const_type l) else zero_cell) 5
       (fun _ => zero_cache) 0 [].

Definition upd {A} (f : nat -> A) (l : nat) (x : A) : nat -> A :=
  fun l' => if (l' =? l)%nat then x else f l'.
Definition set_cell (s : st) (l : nat) (c : cell) : st :=
  mkSt (upd (hp s) l c) (nx s) (cs s) (nc s) (pl s).
Definition set_cache (s : st) (k : nat) (c : cache) : st :=
  mkSt (hp s) (nx s) (upd (cs s) k c) (nc s) (pl s).

(** Field assignments of the Go code. *)
Definition w_obj (c : cell) (u : bool) (kvs sp : list (bytes * ptr)) : cell :=
  mkCell (c_dt c) (c_ext c) u kvs sp (c_own c) (c_sv c) (c_str c) (c_bin c) (c_arr c).
Definition w_arr (c : cell) (a : list ptr) : cell :=
  mkCell (c_dt c) (c_ext c) (c_unesc c) (c_kvs c) (c_spare c) (c_own c) (c_sv c) (c_str c) (c_bin c) a.
Definition w_sv (c : cell) (v : Z) : cell :=
  mkCell (c_dt c) (c_ext c) (c_unesc c) (c_kvs c) (c_spare c) (c_own c) v (c_str c) (c_bin c) (c_arr c).
Definition w_str (c : cell) (v : bytes) : cell :=
  mkCell (c_dt c) (c_ext c) (c_unesc c) (c_kvs c) (c_spare c) (c_own c) (c_sv c) v (c_bin c) (c_arr c).
Definition w_own (c : cell) (o : option nat) : cell :=
  mkCell (c_dt c) (c_ext c) (c_unesc c) (c_kvs c) (c_spare c) o (c_sv c) (c_str c) (c_bin c) (c_arr c).
Definition w_dt (c : cell) (t : vtype) : cell :=
  mkCell t (c_ext c) (c_unesc c) (c_kvs c) (c_spare c) (c_own c) (c_sv c) (c_str c) (c_bin c) (c_arr c).

Definition empty_kv : bytes * ptr := ([], None).

(** Body of [DxValue.Reset] after the read-only test (dxvalue.go:322-352).  [simpleV] and
    [ownercache] are not touched. *)
Definition reset_cell (c : cell) (t : vtype) : cell :=
  match t with
  | TObject =>
      mkCell t 0 false []
        (match c_kvs c, c_spare c with
         | [], [] => repeat empty_kv 8                   (* make([]strkv,0,8) *)
         | kvs, sp => map (fun _ => empty_kv) kvs ++ sp  (* zeroed, then [:0] *)
         end)
        (c_own c) (c_sv c) [] [] []
  | _ => mkCell t 0 false [] [] (c_own c) (c_sv c) [] [] []
  end.
(** [DxValue.Reset] (dxvalue.go:318-353). *)
Definition Reset (s : st) (l : nat) (t : vtype) : st :=
  if ReadOnly l then s else set_cell s l (reset_cell (hp s l) t).

(** [DxValue.Clear] (dxvalue.go:192-216) with [ValueCache.Reset] (cache.go:55-61);
    [c.Value[:1]] panics when the capacity is 0. *)
Definition clear_cell (c : cell) : cell :=
  match c_dt c with
  | TObject =>
      mkCell (c_dt c) (c_ext c) false [] (map (fun _ => empty_kv) (c_kvs c) ++ c_spare c)
        (c_own c) (c_sv c) [] [] (c_arr c)
  | _ => mkCell (c_dt c) (c_ext c) false [] [] (c_own c) (c_sv c) [] [] []
  end.
Definition cache_reset (s : st) (k : nat) (toRoot : bool) : res st :=
  let c := cs s k in
  if toRoot then Ok (set_cache s k (mkCache (ca_root c) (ca_slots c) 0))
  else match ca_slots c with
       | [] => Panic
       | _ => Ok (set_cache s k (mkCache (ca_root c) (ca_slots c) 1))
       end.
Definition Clear (s : st) (l : nat) : res st :=
  do s1 <- match c_own (hp s l) with
           | Some k => cache_reset s k false
           | None => Ok s
           end;
  Ok (set_cell s1 l (clear_cell (hp s1 l))).

(** [FreeValue] (cache.go:64-75), [ValueCachePool.Put]. *)
Definition FreeValue (s : st) (p : ptr) : res st :=
  match p with
  | None => Ok s
  | Some l =>
      do s1 <- Clear s l;
      let o := c_own (hp s1 l) in
      let s2 := set_cell s1 l (w_own (hp s1 l) None) in
      match o with
      | None => Ok s2
      | Some k =>
          do s3 <- cache_reset s2 k true;
          Ok (mkSt (hp s3) (nx s3) (cs s3) (nc s3) (k :: pl s3))
      end
  end.

(** [getCache] (cache.go:40-53).  [ValueCachePool.Get] may return any pooled cache or nothing:
    [choice] is the position of the cache it returns. *)
Fixpoint remove_at {A} (n : nat) (l : list A) : list A :=
  match l, n with
  | [], _ => []
  | _ :: l', O => l'
  | x :: l', S n' => x :: remove_at n' l'
  end.
Definition getCache (s : st) (choice : option nat) : nat * st :=
  match choice with
  | Some i =>
      match nth_error (pl s) i with
      | Some k =>
          let c := cs s k in
          (k, mkSt (hp s) (nx s) (upd (cs s) k (mkCache true (ca_slots c) (ca_len c))) (nc s)
                   (remove_at i (pl s)))
      | None =>
          (nc s, mkSt (hp s) (nx s + 8)
                   (upd (cs s) (nc s) (mkCache true (seq (nx s) 8) 0)) (S (nc s)) (pl s))
      end
  | None =>
      (nc s, mkSt (hp s) (nx s + 8)
               (upd (cs s) (nc s) (mkCache true (seq (nx s) 8) 0)) (S (nc s)) (pl s))
  end.

(** Copy the cells [src] to consecutive fresh addresses from [dst] (the [append] growth of
    cache.go:29); fresh addresses hold [zero_cell]. *)
Fixpoint copy_cells (f : nat -> cell) (src : list nat) (dst : nat) (g : nat -> cell) : nat -> cell :=
  match src with
  | [] => g
  | a :: r => upd (copy_cells f r (S dst) g) dst (f a)
  end.

Section Api.
Variable E : env.
(** Capacity slack chosen by the Go runtime when a slice grows. *)
Variable G : nat -> nat.

(** Lengthen [c.Value] by one (cache.go:26-30): within the capacity, or by [append], which moves
    the cells to a new array. *)
Definition cache_room (s : st) (k : nat) : st :=
  let c := cs s k in
  if (ca_len c <? List.length (ca_slots c))%nat then
    set_cache s k (mkCache (ca_root c) (ca_slots c) (S (ca_len c)))
  else
    let n := S (ca_len c + G (ca_len c)) in
    mkSt (copy_cells (hp s) (firstn (ca_len c) (ca_slots c)) (nx s) (hp s)) (nx s + n)
         (upd (cs s) k (mkCache (ca_root c) (seq (nx s) n) (S (ca_len c)))) (nc s) (pl s).

(** [ValueCache.getValue] (cache.go:16-38). *)
Definition getValue (s : st) (c : option nat) (t : vtype) : nat * st :=
  match c with
  | None =>
      let l := nx s in
      let k := nc s in
      (l, mkSt (upd (hp s) l (mkCell t 0 false [] [] (Some k) 0 [] [] [])) (l + 8)
               (upd (cs s) k (mkCache false (seq l 8) 1)) (S k) (pl s))
  | Some k =>
      let c := cs s k in
      let s1 := cache_room s k in
      let l := nth (ca_len c) (ca_slots (cs s1 k)) 0%nat in
      let s2 := Reset s1 l t in
      if ca_root c then
        let c2 := cs s2 k in
        let s3 := set_cache s2 k (mkCache false (ca_slots c2) (ca_len c2)) in
        (l, set_cell s3 l (w_own (hp s3 l) (Some k)))
      else (l, s2)
  end.

(** [VObject.getKv] (dxvalue.go:48-56) followed by the two assignments its callers make. *)
Definition push_kv (c : cell) (name : bytes) (p : ptr) : cell :=
  match c_spare c with
  | _ :: r => w_obj c (c_unesc c) (c_kvs c ++ [(name, p)]) r
  | [] => w_obj c (c_unesc c) (c_kvs c ++ [(name, p)])
            (repeat empty_kv (G (List.length (c_kvs c))))
  end.

(** [NewValue] (dxvalue.go:157-173). *)
Definition NewValue (s : st) (t : vtype) : nat * st :=
  match t with
  | TTrue => (loc_true, s) | TFalse => (loc_false, s) | TNull => (loc_null, s)
  | TInf => (loc_inf, s) | TNan => (loc_nan, s)
  | _ => let l := nx s in
         (l, mkSt (upd (hp s) l (reset_cell zero_cell t)) (S l) (cs s) (nc s) (pl s))
  end.

(** [NewCacheValue] (dxvalue.go:241-257). *)
Definition NewCacheValue (s : st) (choice : option nat) (t : vtype) : nat * st :=
  match t with
  | TTrue => (loc_true, s) | TFalse => (loc_false, s) | TNull => (loc_null, s)
  | TInf => (loc_inf, s) | TNan => (loc_nan, s)
  | _ => let (k, s1) := getCache s choice in getValue s1 (Some k) t
  end.

(** [NewObject] / [NewArray] (dxvalue.go:218-239), uncached. *)
Definition NewObject (s : st) : nat * st :=
  (nx s, mkSt (upd (hp s) (nx s) (mkCell TObject 0 false [] (repeat empty_kv 8) None 0 [] [] []))
              (S (nx s)) (cs s) (nc s) (pl s)).
Definition NewArray (s : st) : nat * st :=
  (nx s, mkSt (upd (hp s) (nx s) (mkCell TArray 0 false [] [] None 0 [] [] []))
              (S (nx s)) (cs s) (nc s) (pl s)).

(** Lookup in the object part of a cell, with the lazy unescaping it may perform
    ([VObject.indexByName], dxvalue.go:99-115). *)
Definition obj_index (s : st) (l : nat) (name : bytes) : option nat * st :=
  let c := hp s l in
  let '(r, (u', kvs')) := index_by_name E (c_unesc c) (c_kvs c) name in
  (r, set_cell s l (w_obj c u' kvs' (c_spare c))).

(** What an access beyond the end would yield in this model, where Go panics: a value that cannot be
    taken for a missing one.  The index tests of the readers exclude it. *)
Definition oob : ptr := Some loc_true.
Definition oob_kv : bytes * ptr := ([0], oob).
(** [DxValue.ValueByName] (dxvalue.go:1021-1035; the object part is [VObject.ValueByName],
    117-133, the same scan as [indexByName]).  The receiver is not nil. *)
Definition ValueByName (s : st) (l : nat) (name : bytes) : ptr * st :=
  let c := hp s l in
  match c_dt c with
  | TObject =>
      let (r, s1) := obj_index s l name in
      (match r with
       | Some i => match nth_error (c_kvs (hp s1 l)) i with Some (_, p) => p | None => None end
       | None => None
       end, s1)
  | TArray =>
      let idx := x_str2int E name (-1) in
      (if (idx <? 0) || (zlen (c_arr c) - 1 <? idx) then None
       else nth (Z.to_nat idx) (c_arr c) oob, s)
  | _ => (None, s)
  end.

(** The loop of [ValueByPath] (dxvalue.go:1041-1049). *)
Fixpoint path_loop (s : st) (l : nat) (paths : list bytes) : ptr * st :=
  match paths with
  | [] => (Some l, s)
  | key :: r =>
      match ValueByName s l key with
      | (Some l', s1) => path_loop s1 l' r
      | (None, s1) => (None, s1)
      end
  end.
(** [ValueByPath] (dxvalue.go:1037-1050). *)
Definition ValueByPath (s : st) (p : ptr) (paths : list bytes) : ptr * st :=
  match p with
  | None => (None, s)
  | Some l => path_loop s l paths
  end.

(** [SetIndexValue] (dxvalue.go:1180-1190). *)
Definition SetIndexValue (s : st) (l : nat) (idx : Z) (p : ptr) : st :=
  let s1 := if vt_eqb (c_dt (hp s l)) TArray then s else Reset s l TArray in
  let c := hp s1 l in
  if (0 <=? idx) && (idx <? zlen (c_arr c)) then
    set_cell s1 l (w_arr c (set_nth (Z.to_nat idx) p (c_arr c)))
  else set_cell s1 l (w_arr c (c_arr c ++ [p])).

(** [SetIndexCached] (dxvalue.go:1217-1241). *)
Definition SetIndexCached (s : st) (l : nat) (idx : Z) (t : vtype) (c : option nat) : nat * st :=
  let s1 := if vt_eqb (c_dt (hp s l)) TArray then s else Reset s l TArray in
  if (0 <=? idx) && (idx <? zlen (c_arr (hp s1 l))) then
    let put (s2 : st) (r : nat) :=
      set_cell s2 l (w_arr (hp s2 l) (set_nth (Z.to_nat idx) (Some r) (c_arr (hp s2 l)))) in
    match nth (Z.to_nat idx) (c_arr (hp s1 l)) None with
    | Some r =>
        if vt_eqb (c_dt (hp s1 r)) t then (r, s1)
        else if ReadOnly r then
          let (r', s2) := getValue s1 c t in (r', put s2 r')
        else (r, Reset s1 r t)
    | None => let (r', s2) := getValue s1 c t in (r', put s2 r')
    end
  else
    let (r, s2) := getValue s1 c t in
    (r, set_cell s2 l (w_arr (hp s2 l) (c_arr (hp s2 l) ++ [Some r]))).
(** [SetIndex] (dxvalue.go:1208-1210). *)
Definition SetIndex (s : st) (l : nat) (idx : Z) (t : vtype) : nat * st :=
  SetIndexCached s l idx t (c_own (hp s l)).

(** [SetKeyCached] (dxvalue.go:1126-1151); [result.DataType] panics on a nil entry. *)
Definition SetKeyCached (s : st) (l : nat) (name : bytes) (t : vtype) (c : option nat)
  : res (nat * st) :=
  let idx := x_str2int E name (-1) in
  if vt_eqb (c_dt (hp s l)) TArray && negb (idx =? -1) then Ok (SetIndex s l idx t)
  else
    let s1 := if vt_eqb (c_dt (hp s l)) TObject then s else Reset s l TObject in
    match obj_index s1 l name with
    | (Some i, s2) =>
        match nth_error (c_kvs (hp s2 l)) i with
        | Some (_, Some r) =>
            if ReadOnly r then
              let (r', s3) := getValue s2 c t in
              let cl := hp s3 l in
              Ok (r', set_cell s3 l
                        (w_obj cl (c_unesc cl) (set_val i (Some r') (c_kvs cl)) (c_spare cl)))
            else if vt_eqb (c_dt (hp s2 r)) t then Ok (r, s2)
            else Ok (r, Reset s2 r t)
        | _ => Panic
        end
    | (None, s2) =>
        let (r, s3) := getValue s2 c t in
        Ok (r, set_cell s3 l (push_kv (hp s3 l) name (Some r)))
    end.
(** [SetKey] (dxvalue.go:1153-1155). *)
Definition SetKey (s : st) (l : nat) (name : bytes) (t : vtype) : res (nat * st) :=
  SetKeyCached s l name t (c_own (hp s l)).

(** [SetKeyValue] (dxvalue.go:1159-1178). *)
Definition SetKeyValue (s : st) (l : nat) (name : bytes) (p : ptr) : st :=
  let idx := x_str2int E name (-1) in
  if vt_eqb (c_dt (hp s l)) TArray && negb (idx =? -1) then SetIndexValue s l idx p
  else
    let s1 := if vt_eqb (c_dt (hp s l)) TObject then s else Reset s l TObject in
    match obj_index s1 l name with
    | (Some i, s2) =>
        let cl := hp s2 l in
        set_cell s2 l (w_obj cl (c_unesc cl) (set_val i p (c_kvs cl)) (c_spare cl))
    | (None, s2) => set_cell s2 l (push_kv (hp s2 l) name p)
    end.

(** [InsertValue] (dxvalue.go:1243-1260); [Append] (1212-1214) is [InsertValue] at MaxInt32. *)
Definition InsertValue (s : st) (l : nat) (idx : Z) (t : vtype) : nat * st :=
  let s1 := if vt_eqb (c_dt (hp s l)) TArray then s else Reset s l TArray in
  let (r, s2) := NewValue s1 t in
  let a := c_arr (hp s2 l) in
  let i := if idx <? 0 then 0 else idx in
  let a' := if i <? zlen a
            then firstn (Z.to_nat i) a ++ Some r :: skipn (Z.to_nat i) a
            else a ++ [Some r] in
  (r, set_cell s2 l (w_arr (hp s2 l) a')).
Definition Append (s : st) (l : nat) (t : vtype) : nat * st := InsertValue s l 2147483647 t.

(** [RemoveIndex] (dxvalue.go:650-654). *)
Definition RemoveIndex (s : st) (l : nat) (idx : Z) : st :=
  let c := hp s l in
  if vt_eqb (c_dt c) TArray && (0 <=? idx) && (idx <? zlen (c_arr c)) then
    set_cell s l (w_arr c (remove_at (Z.to_nat idx) (c_arr c)))
  else s.

(** [RemoveKey]/[VObject.Remove] (dxvalue.go:637-641, 58-75): the slot freed at the end keeps the
    last pair. *)
Definition remove_kv (c : cell) (i : nat) : cell :=
  w_obj c (c_unesc c) (remove_at i (c_kvs c)) (last (c_kvs c) empty_kv :: c_spare c).
Definition RemoveKey (s : st) (l : nat) (name : bytes) : st :=
  match c_dt (hp s l) with
  | TObject =>
      match obj_index s l name with
      | (Some i, s1) => set_cell s1 l (remove_kv (hp s1 l) i)
      | (None, s1) => s1
      end
  | _ => s
  end.
(** [ExtractValue] (dxvalue.go:643-648, 77-97). *)
Definition ExtractValue (s : st) (l : nat) (name : bytes) : ptr * st :=
  match c_dt (hp s l) with
  | TObject =>
      match obj_index s l name with
      | (Some i, s1) =>
          (match nth_error (c_kvs (hp s1 l)) i with Some (_, p) => p | None => None end,
           set_cell s1 l (remove_kv (hp s1 l) i))
      | (None, s1) => (None, s1)
      end
  | _ => (None, s)
  end.

(** Readers (dxvalue.go:788-812, 1303-1324). *)
Definition Count (s : st) (l : nat) : Z :=
  match c_dt (hp s l) with
  | TArray => zlen (c_arr (hp s l))
  | TObject => zlen (c_kvs (hp s l))
  | _ => 0
  end.
Definition Items (s : st) (l : nat) (idx : Z) : bytes * ptr * st :=
  let c := hp s l in
  match c_dt c with
  | TArray =>
      (if (0 <=? idx) && (idx <? zlen (c_arr c))
       then ([], nth (Z.to_nat idx) (c_arr c) oob) else ([], None), s)
  | TObject =>
      if (0 <=? idx) && (idx <? zlen (c_kvs c)) then
        let kvs := unescape_keys E (c_unesc c) (c_kvs c) in
        (nth (Z.to_nat idx) kvs oob_kv, set_cell s l (w_obj c true kvs (c_spare c)))
      else ([], None, s)
  | _ => ([], None, s)
  end.
Definition ValueByIndex (s : st) (l : nat) (idx : Z) : ptr :=
  let c := hp s l in
  match c_dt c with
  | TObject => if (0 <=? idx) && (idx <? zlen (c_kvs c))
               then snd (nth (Z.to_nat idx) (c_kvs c) oob_kv) else None
  | TArray => if (0 <=? idx) && (idx <? zlen (c_arr c))
              then nth (Z.to_nat idx) (c_arr c) oob else None
  | _ => None
  end.
Definition KeyNameByIndex (s : st) (l : nat) (idx : Z) : bytes :=
  let c := hp s l in
  match c_dt c with
  | TObject => if (0 <=? idx) && (idx <? zlen (c_kvs c))
               then fst (nth (Z.to_nat idx) (c_kvs c) oob_kv) else []
  | _ => []
  end.

(** Typed setters (dxvalue.go:700-705, 814-819, 895-904, 987-1019).  [SetInt], [SetString] and
    [SetTime] do not test [ReadOnly]. *)
Definition ensure (s : st) (l : nat) (t : vtype) : st :=
  if vt_eqb (c_dt (hp s l)) t then s else Reset s l t.
Definition SetInt (s : st) (l : nat) (v : Z) : st :=
  let s1 := ensure s l TInt in set_cell s1 l (w_sv (hp s1 l) (to_u64 v)).
Definition SetString (s : st) (l : nat) (v : bytes) : st :=
  let s1 := ensure s l TString in set_cell s1 l (w_str (hp s1 l) v).
Definition SetBool (s : st) (l : nat) (b : bool) : st :=
  if ReadOnly l then s else Reset s l (if b then TTrue else TFalse).
Definition is_dbl (t : vtype) : bool := vt_eqb t TDouble || vt_eqb t TDateTime.
Definition SetDouble (s : st) (l : nat) (v : Z) : st :=
  if ReadOnly l then s
  else let s1 := if is_dbl (c_dt (hp s l)) then s else Reset s l TDouble in
       set_cell s1 l (w_sv (hp s1 l) v).
Definition SetDelphiTime (s : st) (l : nat) (v : Z) : st :=
  let s1 := if is_dbl (c_dt (hp s l)) then s else Reset s l TDateTime in
  set_cell s1 l (w_sv (hp s1 l) v).
Definition SetTime (s : st) (l : nat) (v : Z * Z) : st := SetDelphiTime s l (x_delphi E v).
(** [SetFloat] writes 4 of the 8 bytes of [simpleV]. *)
Definition SetFloat (s : st) (l : nat) (v : Z) : st :=
  if ReadOnly l then s
  else let s1 := ensure s l TFloat in
       set_cell s1 l (w_sv (hp s1 l) ((c_sv (hp s1 l) / 2^32) * 2^32 + v)).

(** Keyed and indexed setters (dxvalue.go:821-876). *)
Definition SetKeyString s l name v : res st :=
  do (r, s1) <- SetKey s l name TString; Ok (set_cell s1 r (w_str (hp s1 r) v)).
Definition SetKeyInt s l name v : res st :=
  do (r, s1) <- SetKey s l name TInt; Ok (SetInt s1 r v).
Definition SetKeyFloat s l name v : res st :=
  do (r, s1) <- SetKey s l name TFloat; Ok (SetFloat s1 r v).
Definition SetKeyDouble s l name v : res st :=
  do (r, s1) <- SetKey s l name TDouble; Ok (SetDouble s1 r v).
Definition SetKeyBool s l name (b : bool) : st :=
  SetKeyValue s l name (Some (if b then loc_true else loc_false)).
Definition SetKeyTime s l name v : res st :=
  do (r, s1) <- SetKey s l name TDateTime; Ok (SetTime s1 r v).
Definition SetIndexString s l idx v : st :=
  let (r, s1) := SetIndex s l idx TString in set_cell s1 r (w_str (hp s1 r) v).
Definition SetIndexInt s l idx v : st :=
  let (r, s1) := SetIndex s l idx TInt in SetInt s1 r v.
Definition SetIndexFloat s l idx v : st :=
  let (r, s1) := SetIndex s l idx TFloat in SetFloat s1 r v.
Definition SetIndexDouble s l idx v : st :=
  let (r, s1) := SetIndex s l idx TDouble in SetDouble s1 r v.
Definition SetIndexBool s l idx (b : bool) : st :=
  snd (SetIndex s l idx (if b then TTrue else TFalse)).
Definition SetIndexTime s l idx v : st :=
  let (r, s1) := SetIndex s l idx TDateTime in SetTime s1 r v.

(** Getters (dxvalue.go:535-551, 878-889, 906-940, 707-757).  [String] of containers and binaries is
    not modelled here (JsonModel.v models the formatter on trees). *)
Definition Int (c : cell) : Z :=
  match c_dt c with
  | TTrue => 1
  | TInt => to_i64 (c_sv c)
  | TDouble | TDateTime => x_f64_to_i64 E (c_sv c)
  | TFloat => x_f64_to_i64 E (x_f32_to_f64 E (c_sv c mod 2^32))
  | TString | TRaw => x_str2int E (c_str c) 0
  | _ => 0
  end.
Definition Bool (c : cell) : bool :=
  if (vt_code TInt <=? vt_code (c_dt c)) && (vt_code (c_dt c) <=? vt_code TDateTime)
  then 0 <? to_i64 (c_sv c)
  else match c_dt c with
       | TTrue => true
       | TString | TRaw => x_fold E (c_str c) [116; 114; 117; 101]     (* "true" *)
       | _ => false
       end.
(** float64 bits of 1 and 0: 0x3ff0000000000000 and 0. *)
Definition Double (c : cell) : Z :=
  match c_dt c with
  | TTrue => 4607182418800017408
  | TInt => x_i64_to_f64 E (to_i64 (c_sv c))
  | TDouble | TDateTime => c_sv c
  | TFloat => x_f32_to_f64 E (c_sv c mod 2^32)
  | TString | TRaw => x_str2f64 E (c_str c) 0
  | _ => 0
  end.
(** [String] on scalars, and the cell afterwards (a raw string is unescaped in place, 750-753). *)
Definition StringOf (c : cell) : bytes * cell :=
  match c_dt c with
  | TInt => (fmt_int (to_i64 (c_sv c)), c)
  | TTrue => ([116; 114; 117; 101], c)
  | TFalse => ([102; 97; 108; 115; 101], c)
  | TNull => ([110; 117; 108; 108], c)
  | TDouble => (x_fmt_f64 E (c_sv c), c)
  | TFloat => (x_fmt_f64 E (x_f32_to_f64 E (c_sv c mod 2^32)), c)
  | TDateTime => (x_fmt_time E (c_sv c), c)
  | TString => (c_str c, c)
  | TRaw => let v := x_unescape E (c_str c) in (v, w_str (w_dt c TString) v)
  | _ => ([], c)
  end.

(** [clone] (dxvalue.go:553-578); a nil child panics ([v.DataType] on a nil receiver).  The loops
    read the pairs/elements of the source [src] from the heap in every round, from position [i]. *)
Fixpoint clone (fuel : nat) (s : st) (p : ptr) (c : option nat) {struct fuel} : res (nat * st) :=
  match fuel with
  | O => OutOfFuel
  | S f =>
      match p with
      | None => Panic
      | Some l =>
          let t := c_dt (hp s l) in
          if vt_code TTrue <=? vt_code t then Ok (l, s)
          else
            let (r, s1) := getValue s c t in
            if (vt_code TInt <=? vt_code t) && (vt_code t <=? vt_code TDateTime) then
              Ok (r, set_cell s1 r (w_sv (hp s1 r) (c_sv (hp s1 l))))
            else match t with
            | TString | TRaw => Ok (r, set_cell s1 r (w_str (hp s1 r) (c_str (hp s1 l))))
            | TObject =>
                let cr := hp s1 r in
                let s2 := set_cell s1 r (w_obj cr (c_unesc (hp s1 l)) (c_kvs cr) (c_spare cr)) in
                do s3 <- clone_kvs f s2 r l O c;
                Ok (r, s3)
            | TArray =>
                do s3 <- clone_arr f s1 r l O c;
                Ok (r, s3)
            | _ => Ok (r, s1)
            end
      end
  end
with clone_kvs (fuel : nat) (s : st) (r src i : nat) (c : option nat) {struct fuel} : res st :=
  match fuel with
  | O => OutOfFuel
  | S f =>
      match nth_error (c_kvs (hp s src)) i with
      | None => Ok s
      | Some (k, p) =>
          do (x, s1) <- clone f s p c;
          clone_kvs f (set_cell s1 r (push_kv (hp s1 r) k (Some x))) r src (S i) c
      end
  end
with clone_arr (fuel : nat) (s : st) (r src i : nat) (c : option nat) {struct fuel} : res st :=
  match fuel with
  | O => OutOfFuel
  | S f =>
      match nth_error (c_arr (hp s src)) i with
      | None => Ok s
      | Some p =>
          do (x, s1) <- clone f s p c;
          clone_arr f (set_cell s1 r (w_arr (hp s1 r) (c_arr (hp s1 r) ++ [Some x]))) r src (S i) c
      end
  end.
(** [Clone] (dxvalue.go:627-635). *)
Definition Clone (fuel : nat) (s : st) (p : ptr) (usecache : option (option nat)) : res (nat * st) :=
  match usecache with
  | Some choice => let (k, s1) := getCache s choice in clone fuel s1 p (Some k)
  | None => clone fuel s p None
  end.

(** The pair loop of [AddFrom] and [CopyFrom] (dxvalue.go:586-592, 607-613).  Unlike [clone], whose
    destination is a new cell, the destination may lie inside the source here, so the order of
    the three statements shows: [getKv] makes the slot visible, then the key is written, then the
    value is cloned and stored.  Simplified: until it is stored the slot's value is nil; Go leaves
    there what a removed pair left behind. *)
Fixpoint add_kvs (fuel : nat) (s : st) (r src i : nat) (c : option nat) {struct fuel} : res st :=
  match fuel with
  | O => OutOfFuel
  | S f =>
      match nth_error (c_kvs (hp s src)) i with
      | None => Ok s
      | Some (k, p) =>
          let j := List.length (c_kvs (hp s r)) in
          let s0 := set_cell s r (push_kv (hp s r) k None) in
          do (x, s1) <- clone f s0 p c;
          let cr := hp s1 r in
          add_kvs f (set_cell s1 r (w_obj cr (c_unesc cr) (set_val j (Some x) (c_kvs cr)) (c_spare cr)))
            r src (S i) c
      end
  end.
(** [AddFrom] (dxvalue.go:580-598); [from] is not nil. *)
Definition AddFrom (fuel : nat) (s : st) (l from : nat) (c : option nat) : res st :=
  match c_dt (hp s from) with
  | TObject =>
      let c' := match c with None => c_own (hp s l) | _ => c end in
      let cl := hp s l in
      let s1 := set_cell s l (w_obj cl (c_unesc (hp s from)) (c_kvs cl) (c_spare cl)) in
      add_kvs fuel s1 l from O c'
  | TArray => clone_arr fuel s l from O (c_own (hp s l))
  | _ => Ok s
  end.
(** [CopyFrom] (dxvalue.go:600-625). *)
Definition CopyFrom (fuel : nat) (s : st) (l from : nat) (c : option nat) : res st :=
  let t := c_dt (hp s from) in
  let s0 := Reset s l t in
  match t with
  | TObject | TArray => AddFrom fuel s0 l from c
  | TString | TRaw => Ok (set_cell s0 l (w_str (hp s0 l) (c_str (hp s0 from))))
  | _ => if (vt_code TInt <=? vt_code (c_dt (hp s0 l))) &&
            (vt_code (c_dt (hp s0 l)) <=? vt_code TDateTime)
         then Ok (set_cell s0 l (w_sv (hp s0 l) (c_sv (hp s0 from))))
         else Ok s0
  end.

(** [UnEscapestrs] on a cell (dxvalue.go:135-144). *)
Definition unescape_cell (c : cell) : cell :=
  w_obj c true (unescape_keys E (c_unesc c) (c_kvs c)) (c_spare c).

(** [Equal] (dxvalue.go:478-529).  It may unescape keys and raw strings on the way.  The array
    length test compares [len(v.farr)] with itself, so a shorter argument is indexed out of range. *)
Definition numeric (t : vtype) : bool :=
  (vt_code TInt <=? vt_code t) && (vt_code t <=? vt_code TDouble).
Fixpoint Equal (fuel : nat) (s : st) (p q : ptr) {struct fuel} : res (bool * st) :=
  match fuel with
  | O => OutOfFuel
  | S f =>
      match p, q with
      | None, None => Ok (true, s)
      | None, Some _ | Some _, None => Ok (false, s)
      | Some l, Some m =>
          let a := hp s l in
          let b := hp s m in
          if negb (vt_eqb (c_dt a) (c_dt b)) then
            if (vt_eqb (c_dt a) TString && vt_eqb (c_dt b) TRaw) ||
               (vt_eqb (c_dt b) TString && vt_eqb (c_dt a) TRaw) then
              let (x, a') := StringOf a in
              let s1 := set_cell s l a' in
              let (y, b') := StringOf (hp s1 m) in
              Ok (x_fold E x y, set_cell s1 m b')
            else if numeric (c_dt a) && numeric (c_dt b) then
              Ok (x_f64_eq E (Double a) (Double b), s)
            else Ok (false, s)
          else
            match c_dt a with
            | TString | TRaw => Ok (beq (c_str a) (c_str b), s)
            | TBinary | TExBinary => Ok (beq (c_bin a) (c_bin b), s)
            | TObject =>
                if negb (zlen (c_kvs a) =? zlen (c_kvs b)) then Ok (false, s)
                else
                  let s1 := set_cell s l (unescape_cell (hp s l)) in
                  let s2 := set_cell s1 m (unescape_cell (hp s1 m)) in
                  equal_kvs f s2 l m O
            | TArray => equal_arr f s l m O
            | TInt | TFloat | TDouble | TDateTime => Ok (c_sv a =? c_sv b, s)
            | _ => Ok (true, s)
            end
      end
  end
with equal_kvs (fuel : nat) (s : st) (l m i : nat) {struct fuel} : res (bool * st) :=
  match fuel with
  | O => OutOfFuel
  | S f =>
      match nth_error (c_kvs (hp s l)) i with
      | None => Ok (true, s)
      | Some (k, p) =>
          match nth_error (c_kvs (hp s m)) i with
          | None => Panic
          | Some (k', q) =>
              if negb (beq k k') then Ok (false, s)
              else do (r, s1) <- Equal f s p q;
                   if (r : bool) then equal_kvs f s1 l m (S i) else Ok (false, s1)
          end
      end
  end
with equal_arr (fuel : nat) (s : st) (l m i : nat) {struct fuel} : res (bool * st) :=
  match fuel with
  | O => OutOfFuel
  | S f =>
      match nth_error (c_arr (hp s l)) i with
      | None => Ok (true, s)
      | Some p =>
          match nth_error (c_arr (hp s m)) i with
          | None => Panic
          | Some q =>
              do (r, s1) <- Equal f s p q;
              if (r : bool) then equal_arr f s1 l m (S i) else Ok (false, s1)
          end
      end
  end.

(** [MergeOp] (dxvalue.go:405-410). *)
Inductive merge_op := MO_Custom | MO_Replace | MO_Normal.
(** [MergeFunc] (dxvalue.go:412) as a pure function of its three arguments; a callback that itself
    mutates values is not modelled. *)
Definition merge_fn := bytes -> ptr -> ptr -> merge_op.

(** [mergeObject] (dxvalue.go:414-447): loop from pair [i] of [value].  [path] is [parentpath],
    [op] is [mergeOp].  The collision with a container returns out of the loop (428). *)
Fixpoint mergeObject (fuel : nat) (s : st) (path : bytes) (op : merge_op) (l m i : nat)
  (fn : option merge_fn) {struct fuel} : res (bytes * st) :=
  match fuel with
  | O => OutOfFuel
  | S f =>
      match nth_error (c_kvs (hp s m)) i with
      | None => Ok (path, s)
      | Some (k, _) =>
          match obj_index s l k with
          | (Some idx, s1) =>
              let old := match nth_error (c_kvs (hp s1 l)) idx with Some (_, p) => p | None => None end in
              let new := match nth_error (c_kvs (hp s1 m)) i with Some (_, p) => p | None => None end in
              let '(path', op') :=
                match fn with
                | Some g =>
                    let path' := (match path with [] => [] | _ => path ++ [47] end)
                                 ++ match nth_error (c_kvs (hp s1 m)) i with
                                    | Some (k', _) => k' | None => [] end in
                    (path', g path' old new)
                | None => (path, op)
                end in
              match op' with
              | MO_Normal =>
                  match old with
                  | None => Panic
                  | Some o =>
                      if vt_code (c_dt (hp s1 o)) <=? vt_code TArray then
                        match new with
                        | Some n => mergeObject f s1 path' MO_Normal o n O fn
                        | None => Panic
                        end
                      else
                        do (oc, s2) <- clone f s1 old None;
                        let s3 := Reset s2 o TArray in
                        let s4 := SetIndexValue s3 o 0 (Some oc) in
                        do (ncl, s5) <- clone f s4 new None;
                        let s6 := SetIndexValue s5 o 1 (Some ncl) in
                        mergeObject f s6 path' op' l m (S i) fn
                  end
              | MO_Replace =>
                  match old with
                  | None => Panic
                  | Some o =>
                      let s2 := Reset s1 o TNull in
                      do (ncl, s3) <- clone f s2 new None;
                      let cl := hp s3 l in
                      mergeObject f
                        (set_cell s3 l (w_obj cl (c_unesc cl) (set_val idx (Some ncl) (c_kvs cl)) (c_spare cl)))
                        path' op' l m (S i) fn
                  end
              | MO_Custom => mergeObject f s1 path' op' l m (S i) fn
              end
          | (None, s1) =>
              match nth_error (c_kvs (hp s1 m)) i with
              | Some (k', p) =>
                  do (x, s2) <- clone f s1 p None;
                  mergeObject f (SetKeyValue s2 l k' (Some x)) path op l m (S i) fn
              | None => Panic
              end
          end
      end
  end.

(** The two loops of the array part of [MergeWith] (dxvalue.go:459-472). *)
Fixpoint any_equal (fuel : nat) (s : st) (p : ptr) (l : nat) (j : nat) {struct fuel} : res (bool * st) :=
  match fuel with
  | O => OutOfFuel
  | S f =>
      match nth_error (c_arr (hp s l)) j with
      | None => Ok (false, s)
      | Some q =>
          do (r, s1) <- Equal f s p q;
          if (r : bool) then Ok (true, s1) else any_equal f s1 p l (S j)
      end
  end.
Fixpoint merge_arr (fuel : nat) (s : st) (l m i : nat) (add : list ptr) {struct fuel}
  : res (list ptr * st) :=
  match fuel with
  | O => OutOfFuel
  | S f =>
      match nth_error (c_arr (hp s m)) i with
      | None => Ok (add, s)
      | Some p =>
          do (found, s1) <- any_equal f s p l O;
          if (found : bool) then merge_arr f s1 l m (S i) add
          else do (x, s2) <- clone f s1 p None;
               merge_arr f s2 l m (S i) (add ++ [Some x])
      end
  end.
(** [MergeWith] (dxvalue.go:449-476). *)
Definition MergeWith (fuel : nat) (s : st) (v value : ptr) (fn : option merge_fn) : res st :=
  match value, v with
  | Some m, Some l =>
      if negb (vt_eqb (c_dt (hp s m)) (c_dt (hp s l))) ||
         (vt_code TArray <? vt_code (c_dt (hp s l))) then Ok s
      else if vt_eqb (c_dt (hp s l)) TObject then
        do (_, s1) <- mergeObject fuel s [] MO_Normal l m O fn; Ok s1
      else
        do (add, s1) <- merge_arr fuel s l m O [];
        match add with
        | [] => Ok s1
        | _ => Ok (set_cell s1 l (w_arr (hp s1 l) (c_arr (hp s1 l) ++ add)))
        end
  | _, _ => Ok s
  end.

(** [ForcePath] (dxvalue.go:656-698): one iteration of the loop; [prev] is [paths[i-1]].
    [llast]/[last] are the Go variables [llastv]/[lastv]. *)
Fixpoint force_loop (s : st) (cur : ptr) (llast last : ptr) (prev : bytes) (paths : list bytes)
  : res (ptr * st) :=
  match paths with
  | [] | [_] => Ok (cur, s)
  | key :: rest =>
      let llast' := match last with Some _ => last | None => llast end in
      match cur with
      | None => Panic
      | Some lv =>
          let (cv, s1) := ValueByName s lv key in
          let low := match cv with Some x => vt_code (c_dt (hp s1 x)) <=? vt_code TArray | None => false end in
          if low then force_loop s1 cv llast' cur key rest
          else
            match c_dt (hp s1 lv) with
            | TArray =>
                let idx := x_str2int E key (-1) in
                if idx <? 0 then
                  let s2 := Reset s1 lv TObject in
                  do (n, s3) <- SetKey s2 lv key TObject;
                  force_loop s3 (Some n) llast' cur key rest
                else
                  let (n, s3) := SetIndex s1 lv idx TObject in
                  force_loop s3 (Some n) llast' cur key rest
            | TObject =>
                do (n, s3) <- SetKey s1 lv key TObject;
                force_loop s3 (Some n) llast' cur key rest
            | _ =>
                if ReadOnly lv then
                  match llast' with
                  | None =>
                      let (n, s2) := NewValue s1 TObject in
                      force_loop s2 (Some n) llast' None key rest
                  | Some ll =>
                      do (lv', s2) <- SetKey s1 ll prev TObject;
                      do (n, s3) <- SetKey s2 lv' key TObject;
                      force_loop s3 (Some n) llast' (Some lv') key rest
                  end
                else
                  let s2 := Reset s1 lv TObject in
                  do (n, s3) <- SetKey s2 lv key TObject;
                  force_loop s3 (Some n) llast' cur key rest
            end
      end
  end.
Definition ForcePath (s : st) (l : nat) (t : vtype) (paths : list bytes) : res (ptr * st) :=
  match paths with
  | [] => Ok (Some l, s)
  | _ =>
      do (cur, s1) <- force_loop s (Some l) None None [] paths;
      match cur with
      | None => Panic
      | Some cv => do (n, s2) <- SetKey s1 cv (List.last paths []) t; Ok (Some n, s2)
      end
  end.

(** Getters with a default (dxvalue.go:1053-1107; [AsInt], [IntByName] and so on are in
    NamedModel.v).  [FloatByPath], [DateTimeByPath], [GoTimeByPath] and
    [DurationByPath] are in GetModel.v. *)
Definition IntByPath (s : st) (p : ptr) (def : Z) (paths : list bytes) : Z * st :=
  let (r, s1) := ValueByPath s p paths in
  (match r with None => def | Some l => Int (hp s1 l) end, s1).
Definition BoolByPath (s : st) (p : ptr) (def : bool) (paths : list bytes) : bool * st :=
  let (r, s1) := ValueByPath s p paths in
  (match r with None => def | Some l => Bool (hp s1 l) end, s1).
Definition DoubleByPath (s : st) (p : ptr) (def : Z) (paths : list bytes) : Z * st :=
  let (r, s1) := ValueByPath s p paths in
  (match r with None => def | Some l => Double (hp s1 l) end, s1).
Definition StringByPath (s : st) (p : ptr) (def : bytes) (paths : list bytes) : bytes * st :=
  let (r, s1) := ValueByPath s p paths in
  match r with
  | None => (def, s1)
  | Some l => let (x, c) := StringOf (hp s1 l) in (x, set_cell s1 l c)
  end.
(** Getters by index (dxvalue.go:1263-1301). *)
Definition IntByIndex (s : st) (l : nat) (idx : Z) (def : Z) : Z :=
  match ValueByIndex s l idx with None => def | Some x => Int (hp s x) end.
Definition BoolByIndex (s : st) (l : nat) (idx : Z) (def : bool) : bool :=
  match ValueByIndex s l idx with None => def | Some x => Bool (hp s x) end.
Definition DoubleByIndex (s : st) (l : nat) (idx : Z) (def : Z) : Z :=
  match ValueByIndex s l idx with None => def | Some x => Double (hp s x) end.

End Api.
