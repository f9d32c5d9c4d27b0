(** Exporting values to Go: [ToStdValue], [decode2reflectFromdxValue] and [decodeArray2reflect] of
    reflect_parse.go, and [Visit] of dxvalue.go. *)
From Verif Require Import Base Values HeapModel GetModel.

Section Export.
Variable E : env.
Variable T : tenv.
(** [String] of a container or of bytes (dxvalue.go:729-757; the formatter is in JsonModel.v, on
    trees).  Nothing is assumed about it; for bytes it can panic. *)
Variable F : st -> nat -> res bytes.

(** [String] (dxvalue.go:707-757) with its effect: a raw string is unescaped in place (750-753). *)
Definition take_string (s : st) (l : nat) : res (bytes * st) :=
  match c_dt (hp s l) with
  | TObject | TArray | TBinary => do b <- F s l; Ok (b, s)
  | _ => let (b, c) := StringOf E (hp s l) in Ok (b, set_cell s l c)
  end.
(** [Binary] (bin_value.go:40-52). *)
Definition take_bytes (c : cell) : bytes :=
  match c_dt c with
  | TBinary => c_bin c
  | TExBinary => tl (c_bin c)
  | _ => []
  end.

(** ** map[string]interface{} and []interface{} *)
(** What can be in an [interface{}] after the export. *)
Inductive gout :=
| XNil
| XBool (b : bool)
| XInt (n : Z)                       (* int64 *)
| XF64 (bits : Z)
| XF32 (bits : Z)
| XStr (b : bytes)
| XTime (t : option (Z * Z))         (* time.Time; [None]: the zero time *)
| XBytes (b : bytes)
| XMap (m : list (bytes * gout))     (* map[string]interface{} *)
| XSlice (l : list gout).            (* []interface{} *)
(** [m[k] = x]. *)
Fixpoint go_set {A} (m : list (bytes * A)) (k : bytes) (x : A) : list (bytes * A) :=
  match m with
  | [] => [(k, x)]
  | (k', y) :: r => if beq k' k then (k', x) :: r else (k', y) :: go_set r k x
  end.

(** The loops of [Visit] (dxvalue.go:1326-1341) with the callbacks of reflect_parse.go:973-1003 and
    1008-1038: the keys are passed as they are stored.  The callbacks change no container, so the
    loop runs over the pairs the container had at the start.  NaN and infinity are in no case. *)
Definition visit_pairs (rec : st -> ptr -> res (option gout * st)) :
    list (bytes * ptr) -> list (bytes * gout) -> st -> res (list (bytes * gout) * st) :=
  fix go (kvs : list (bytes * ptr)) (m : list (bytes * gout)) (s : st) : res (list (bytes * gout) * st) :=
    match kvs with
    | [] => Ok (m, s)
    | (k, p) :: r =>
        do (o, s1) <- rec s p;
        go r (match o with Some x => go_set m k x | None => m end) s1
    end.
Definition visit_elems (rec : st -> ptr -> res (option gout * st)) :
    list ptr -> list gout -> st -> res (list gout * st) :=
  fix go (a : list ptr) (v : list gout) (s : st) : res (list gout * st) :=
    match a with
    | [] => Ok (v, s)
    | p :: r =>
        do (o, s1) <- rec s p;
        go r (match o with Some x => v ++ [x] | None => v end) s1
    end.
(** The [switch] on one entry (reflect_parse.go:974-1001, 1009-1036), which are the same but for the
    assignment.  For an array, [make] gives a slice of [Count] nils; the call appends to its own copy
    of the slice, which is dropped (979-982, 1014-1017). *)
Fixpoint export (fuel : nat) (s : st) (p : ptr) {struct fuel} : res (option gout * st) :=
  match fuel with
  | O => OutOfFuel
  | S fuel' =>
      match p with
      | None => Panic
      | Some l =>
          let c := hp s l in
          match c_dt c with
          | TObject =>
              do (m, s1) <- visit_pairs (export fuel') (c_kvs c) [] s;
              Ok (Some (XMap m), s1)
          | TArray =>
              let nils := repeat XNil (length (c_arr c)) in
              do (_, s1) <- visit_elems (export fuel') (c_arr c) nils s;
              Ok (Some (XSlice nils), s1)
          | TString | TRaw => do (b, s1) <- take_string s l; Ok (Some (XStr b), s1)
          | TInt => Ok (Some (XInt (Int E c)), s)
          | TDateTime => Ok (Some (XTime (GoTime E T c)), s)
          | TDouble => Ok (Some (XF64 (Double E c)), s)
          | TFloat => Ok (Some (XF32 (Float E T c)), s)
          | TBinary | TExBinary => Ok (Some (XBytes (take_bytes c)), s)
          | TTrue => Ok (Some (XBool true), s)
          | TFalse => Ok (Some (XBool false), s)
          | TNull => Ok (Some XNil, s)
          | TNan | TInf => Ok (None, s)
          end
      end
  end.
(** [ToStdValue] with a map[string]interface{} (969-1003): the result, the map and the state. *)
Definition ToStdMap (fuel : nat) (s : st) (l : nat) (m : list (bytes * gout)) :
    res (bool * list (bytes * gout) * st) :=
  match c_dt (hp s l) with
  | TObject => do (m', s1) <- visit_pairs (export fuel) (c_kvs (hp s l)) m s; Ok (true, m', s1)
  | _ => Ok (false, m, s)
  end.
(** [ToStdValue] with a []interface{} (1004-1038): what the caller's slice holds afterwards.  [append]
    extends the callee's copy of the slice, the caller's has its old length and elements. *)
Definition ToStdSlice (fuel : nat) (s : st) (l : nat) (v : list gout) : res (bool * list gout * st) :=
  match c_dt (hp s l) with
  | TArray => do (_, s1) <- visit_elems (export fuel) (c_arr (hp s l)) v s; Ok (true, v, s1)
  | _ => Ok (false, v, s)
  end.
(** [ToStdValue] with a map[string]string (961-968) and with a []string (1039-1046). *)
Fixpoint visit_strings (kvs : list (bytes * ptr)) (m : list (bytes * bytes)) (s : st) : res (list (bytes * bytes) * st) :=
  match kvs with
  | [] => Ok (m, s)
  | (k, None) :: _ => Panic
  | (k, Some l) :: r => do (b, s1) <- take_string s l; visit_strings r (go_set m k b) s1
  end.
Definition ToStdStrMap (s : st) (l : nat) (m : list (bytes * bytes)) : res (bool * list (bytes * bytes) * st) :=
  match c_dt (hp s l) with
  | TObject => do (m', s1) <- visit_strings (c_kvs (hp s l)) m s; Ok (true, m', s1)
  | _ => Ok (false, m, s)
  end.
Definition ToStdStrings (s : st) (l : nat) (v : list bytes) : res (bool * list bytes * st) :=
  match c_dt (hp s l) with
  | TArray =>
      do (_, s1) <- visit_strings (map (fun p => ([], p)) (c_arr (hp s l))) [] s;
      Ok (true, v, s1)
  | _ => Ok (false, v, s)
  end.

(** ** Structs *)
(** Go types as the decoder distinguishes them: [Kind] of a field or of the elements of a slice, the
    widths in bits.  Fields of a struct: name, exported, type.  [YSkip]: pointers, maps, interfaces,
    arrays and all other kinds, for which there is no case.  Types with a
    [DecodeFromDxValue] method and types registered in struct_type.go are in HandlerModel.v. *)
Inductive gtype :=
| YStr | YInt (w : Z) | YUint (w : Z) | YF32 | YF64 | YBool | YTime
| YSlice (t : gtype)
| YStruct (fs : list (bytes * bool * gtype))
| YSkip.
(** The content of a variable of such a type. *)
Inductive slot :=
| LStr (b : bytes) | LInt (n : Z) | LF32 (bits : Z) | LF64 (bits : Z) | LBool (b : bool)
| LTime (t : option (Z * Z))
| LSlice (cap : nat) (l : list slot)
| LStruct (fs : list slot)
| LSkip.
Fixpoint zero (t : gtype) : slot :=
  match t with
  | YStr => LStr [] | YInt _ | YUint _ => LInt 0 | YF32 => LF32 0 | YF64 => LF64 0 | YBool => LBool false
  | YTime => LTime None
  | YSlice _ => LSlice 0 []
  | YStruct fs => LStruct (map (fun f => zero (snd f)) fs)
  | YSkip => LSkip
  end.
(** [reflect.Value.SetInt] and [SetUint] keep the low bits. *)
Definition wrap_int (w n : Z) : Z := (n + 2 ^ (w - 1)) mod 2 ^ w - 2 ^ (w - 1).
Definition wrap_uint (w n : Z) : Z := n mod 2 ^ w.

(** [ignoreCase && strings.EqualFold(Key,fld.Name) || Key == fld.Name] (reflect_parse.go:15). *)
Definition hits (ic : bool) (key name : bytes) : bool := (ic && x_fold E key name) || beq key name.

(** One field or element: [switch tp.Kind()] (30-49), [decodeArray2reflect] (66-187) and
    [decode2reflectFromdxValue] (11-55).  [ro]: reached through an unexported field, so that every
    [Set] panics.  A slice that has room already makes the call panic: [Field] is applied to a slice
    (80-86; 88 when it is full and too short: [vtype] is nil); so do elements of type time (120).
    [growSliceValue] (57-64) is not reached: the new slice has length [n]. *)
Fixpoint decode (ic : bool) (t : gtype) (ro : bool) (d : slot) (s : st) (p : ptr) {struct t} : res (slot * st) :=
  match t with
  | YSkip => Ok (d, s)
  | _ =>
    match p with
    | None => Panic
    | Some l =>
        let c := hp s l in
        match t with
        | YStr => do (b, s1) <- take_string s l; if ro then Panic else Ok (LStr b, s1)
        | YInt w => if ro then Panic else Ok (LInt (wrap_int w (Int E c)), s)
        | YUint w => if ro then Panic else Ok (LInt (wrap_uint w (to_u64 (Int E c))), s)
        | YF32 => if ro then Panic else Ok (LF32 (x_f64_to_f32 E (Double E c)), s)
        | YF64 => if ro then Panic else Ok (LF64 (Double E c), s)
        | YBool => if ro then Panic else Ok (LBool (Bool E c), s)
        | YTime => if ro then Panic else Ok (LTime (GoTime E T c), s)
        | YSlice et =>
            match c_dt c, c_arr c, d with
            | TArray, _ :: _, LSlice (S _) _ => Panic
            | TArray, (_ :: _) as a, LSlice O _ =>
                if ro then Panic
                else
                  match et with
                  | YTime => Panic
                  | YSkip => Ok (LSlice (length a) (repeat LSkip (length a)), s)
                  | _ =>
                      do (ds, s1) <-
                        (fix go (a : list ptr) (s : st) : res (list slot * st) :=
                           match a with
                           | [] => Ok ([], s)
                           | q :: r =>
                               do (x, s1) <- decode ic et false (zero et) s q;
                               do (xs, s2) <- go r s1;
                               Ok (x :: xs, s2)
                           end) a s;
                      Ok (LSlice (length a) ds, s1)
                  end
            | _, _, _ => Ok (d, s)
            end
        | YStruct fs =>
            match d with
            | LStruct ds =>
                do (ds', s1) <-
                  (fix visit (kvs : list (bytes * ptr)) (ds : list slot) (s : st) : res (list slot * st) :=
                     match kvs with
                     | [] => Ok (ds, s)
                     | (k, q) :: r =>
                         do (ds1, s1) <-
                           (fix field (fs : list (bytes * bool * gtype)) (ds : list slot) : res (list slot * st) :=
                              match fs, ds with
                              | (name, exported, ft) :: fs', d :: ds' =>
                                  if hits ic k name then
                                    do (d', s1) <- decode ic ft (ro || negb exported) d s q;
                                    Ok (d' :: ds', s1)
                                  else do (ds1, s1) <- field fs' ds'; Ok (d :: ds1, s1)
                              | _, _ => Ok (ds, s)
                              end) fs ds;
                         visit r ds1 s1
                     end) (match c_dt c with
                           | TObject => c_kvs c
                           | TArray => map (fun q => ([], q)) (c_arr c)
                           | _ => []
                           end) ds s;
                Ok (LStruct ds', s1)
            | _ => Panic
            end
        | YSkip => Ok (d, s)
        end
    end
  end.
(** [ToStdValue] with a pointer to a struct or to a slice (1047-1073): anything but an object is
    refused, so an array is never decoded into a slice. *)
Definition ToStdPtr (ic : bool) (t : gtype) (d : slot) (s : st) (l : nat) : res (bool * slot * st) :=
  match c_dt (hp s l), t with
  | TObject, YStruct _ | TObject, YSlice _ => do (d', s1) <- decode ic t false d s (Some l); Ok (true, d', s1)
  | _, _ => Ok (false, d, s)
  end.
End Export.
