(** Conversion functions registered for Go types (struct_type.go), types with their own
    [DecodeFromDxValue], and variables of basic types: the parts of reflect_parse.go that ExportModel.v
    leaves out. *)
From Verif Require Import Base Values HeapModel GetModel ExportModel.

(** Go types with their identity ([reflect.Type]).  [HName id t]: a defined type with the underlying type
    of [t]; types without a name are equal when they are built alike.  [BSkip]: the kinds without a case.
    Not modelled: a defined type whose underlying type is that of time.Time. *)
Inductive base := BStr | BInt (w : Z) | BUint (w : Z) | BF32 | BF64 | BBool | BTime | BSkip.
Inductive htype :=
| HBase (b : base)
| HSlice (t : htype)
| HStruct (fs : list (bytes * bool * htype))
| HName (id : Z) (t : htype).
(** [Kind]: what the switches of reflect_parse.go look at. *)
Fixpoint under (t : htype) : htype := match t with HName _ t' => under t' | _ => t end.
Definition erase_base (b : base) : gtype :=
  match b with
  | BStr => YStr | BInt w => YInt w | BUint w => YUint w | BF32 => YF32 | BF64 => YF64 | BBool => YBool
  | BTime => YTime | BSkip => YSkip
  end.
(** The type without its names, as ExportModel.v has it. *)
Fixpoint erase (t : htype) : gtype :=
  match t with
  | HBase b => erase_base b
  | HSlice t' => YSlice (erase t')
  | HStruct fs => YStruct (map (fun f => (fst f, erase (snd f))) fs)
  | HName _ t' => erase t'
  end.
Definition base_eq (a b : base) : {a = b} + {a <> b}.
Proof. decide equality; apply Z.eq_dec. Defined.
(** Equality of [reflect.Type]. *)
Fixpoint teq (a b : htype) {struct a} : bool :=
  match a, b with
  | HBase x, HBase y => if base_eq x y then true else false
  | HSlice x, HSlice y => teq x y
  | HStruct fs, HStruct gs =>
      (fix go (fs gs : list (bytes * bool * htype)) : bool :=
         match fs, gs with
         | [], [] => true
         | (n, e, t) :: fs', (m, e', u) :: gs' => beq n m && Bool.eqb e e' && teq t u && go fs' gs'
         | _, _ => false
         end) fs gs
  | HName i x, HName j y => (i =? j) && teq x y
  | _, _ => false
  end.

(** [StdValueFromDxValue] (struct_type.go:30): is the variable reached through an unexported field, its
    content, the memory and the value; the new content and the memory.  User code: it may panic.  It is
    assumed to change no container while [Visit] runs over it. *)
Definition handler : Type := bool -> slot -> st -> ptr -> res (slot * st).
(** [structTypePool] (struct_type.go:25).  A nil function that is stored is the same as none (see 22-25 of
    reflect_parse.go). *)
Definition table : Type := htype -> option handler.
(** [RegisterTypeMapFunc] (struct_type.go:32-34). *)
Definition RegisterTypeMapFunc (tb : table) (tp : htype) (h : option handler) : table :=
  fun t => if teq t tp then h else tb t.
(** [DecodeFromDxValue] of a type (struct_type.go:14-16).  The method is called on what [Interface] gives, a
    copy of the variable, so the content of the variable stays; what a method does through pointers in it
    is not part of a [slot]. *)
Definition method : Type := slot -> st -> ptr -> res st.
(** ... and called on the caller's own pointer. *)
Definition ptr_method : Type := slot -> st -> nat -> res (slot * st).

Section Handler.
Variable E : env.
Variable T : tenv.
Variable F : st -> nat -> res bytes.
(** Which types implement [DxValueUnMarshaler]; for pointers to a type, [PM]. *)
Variable M : htype -> option method.
Variable PM : htype -> option ptr_method.
Variable tb : table.

(** [decode2reflectFromdxValue] (reflect_parse.go:11-55) and [decodeArray2reflect] (66-187).  A field of a
    type with the method: [Interface] (19) panics for unexported fields; else the method gets a copy
    (18-20).  A field of a registered type goes to its function (22-29).  A slice whose elements have a
    method or a function: [Field] (94, 108) panics on a slice. *)
Fixpoint hdecode (ic : bool) (t : htype) (ro : bool) (d : slot) (s : st) (p : ptr) {struct t} : res (slot * st) :=
  match t with
  | HBase b => decode E T F ic (erase_base b) ro d s p
  | HName _ t' => hdecode ic t' ro d s p
  | HSlice et =>
      match p with
      | None => Panic
      | Some l =>
          match c_dt (hp s l), c_arr (hp s l), d with
          | TArray, _ :: _, LSlice (S _) _ => Panic
          | TArray, (_ :: _) as a, LSlice O _ =>
              if ro then Panic
              else
                match M et, tb et with
                | None, None =>
                    match under et with
                    | HBase BTime => Panic
                    | HBase BSkip => Ok (LSlice (length a) (repeat LSkip (length a)), s)
                    | _ =>
                        do (ds, s1) <-
                          (fix go (a : list ptr) (s : st) : res (list slot * st) :=
                             match a with
                             | [] => Ok ([], s)
                             | q :: r =>
                                 do (x, s1) <- hdecode ic et false (zero (erase et)) s q;
                                 do (xs, s2) <- go r s1;
                                 Ok (x :: xs, s2)
                             end) a s;
                        Ok (LSlice (length a) ds, s1)
                    end
                | _, _ => Panic
                end
          | _, _, _ => Ok (d, s)
          end
      end
  | HStruct fs =>
      match p with
      | None => Panic
      | Some l =>
          match d with
          | LStruct ds =>
              do (ds', s1) <-
                (fix visit (kvs : list (bytes * ptr)) (ds : list slot) (s : st) : res (list slot * st) :=
                   match kvs with
                   | [] => Ok (ds, s)
                   | (k, q) :: r =>
                       do (ds1, s1) <-
                         (fix field (fs : list (bytes * bool * htype)) (ds : list slot) : res (list slot * st) :=
                            match fs, ds with
                            | (name, exported, ft) :: fs', d :: ds' =>
                                if hits E ic k name then
                                  do (d', s1) <-
                                    match M ft, tb ft with
                                    | Some m, _ => if ro || negb exported then Panic else do s1 <- m d s q; Ok (d, s1)
                                    | None, Some h => h (ro || negb exported) d s q
                                    | None, None => hdecode ic ft (ro || negb exported) d s q
                                    end;
                                  Ok (d' :: ds', s1)
                                else do (ds1, s1) <- field fs' ds'; Ok (d :: ds1, s1)
                            | _, _ => Ok (ds, s)
                            end) fs ds;
                       visit r ds1 s1
                   end) (match c_dt (hp s l) with
                         | TObject => c_kvs (hp s l)
                         | TArray => map (fun q => ([], q)) (c_arr (hp s l))
                         | _ => []
                         end) ds s;
              Ok (LStruct ds', s1)
          | _ => Panic
          end
      end
  end.
(** [ToStdValue] with a pointer to a variable of type [t] that has no case of its own (1047-1073): the method
    of the pointer type, whatever the value is (1055-1058); else objects into structs and slices.  The
    table is not consulted for [t] itself. *)
Definition ToStdHPtr (ic : bool) (t : htype) (d : slot) (s : st) (l : nat) : res (bool * slot * st) :=
  match PM t with
  | Some m => do (d', s1) <- m d s l; Ok (true, d', s1)
  | None =>
      match c_dt (hp s l), under t with
      | TObject, HStruct _ | TObject, HSlice _ => do (d', s1) <- hdecode ic t false d s (Some l); Ok (true, d', s1)
      | _, _ => Ok (false, d, s)
      end
  end.

(** ** Variables of basic types *)
(** The Go types with a case of their own as pointers (reflect_parse.go:929-960); the widths are 8, 16, 32, 64. *)
Inductive var := WInt (w : Z) | WUint (w : Z) | WStr | WBytes | WBool | WTime | WF64 | WF32.
Inductive vslot := PInt (n : Z) | PStr (b : bytes) | PBytes (b : bytes) | PBool (b : bool) | PTime (t : option (Z * Z)) | PF64 (x : Z) | PF32 (x : Z).
Definition ToStdVar (t : var) (s : st) (l : nat) : res (bool * vslot * st) :=
  let c := hp s l in
  match t with
  | WInt w => Ok (true, PInt (wrap_int w (Int E c)), s)
  | WUint w => Ok (true, PInt (wrap_uint w (Int E c)), s)
  | WStr => do (b, s1) <- take_string E F s l; Ok (true, PStr b, s1)
  | WBytes => Ok (true, PBytes (take_bytes c), s)
  | WBool => Ok (true, PBool (Bool E c), s)
  | WTime => Ok (true, PTime (GoTime E T c), s)
  | WF64 => Ok (true, PF64 (Double E c), s)
  | WF32 => Ok (true, PF32 (Float E T c), s)
  end.
End Handler.
