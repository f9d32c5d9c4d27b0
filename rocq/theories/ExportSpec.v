(** What the export to Go is compared with. *)
From Verif Require Import Base Values HeapModel GetModel ExportModel.

Section Spec.
Variable E : env.
Variable T : tenv.

(** The only effect of an export on memory: some raw strings are unescaped. *)
Definition settled (s s' : st) : Prop :=
  (forall x, hp s' x = hp s x \/
     (c_dt (hp s x) = TRaw /\ hp s' x = w_str (w_dt (hp s x) TString) (x_unescape E (c_str (hp s x))))) /\
  nx s' = nx s /\ cs s' = cs s /\ nc s' = nc s /\ pl s' = pl s.

(** ** Conversions of a tree *)
Definition int_of (v : value) : Z :=
  match v with
  | VTrue => 1
  | VInt _ n => n
  | VDouble x | VDateTime x => x_f64_to_i64 E x
  | VFloat x => x_f64_to_i64 E (x_f32_to_f64 E (x mod 2^32))
  | VString b | VRawString b => x_str2int E b 0
  | _ => 0
  end.
Definition dbl_of (v : value) : Z :=
  match v with
  | VTrue => 4607182418800017408      (* 1.0 *)
  | VInt _ n => x_i64_to_f64 E n
  | VDouble x | VDateTime x => x
  | VFloat x => x_f32_to_f64 E (x mod 2^32)
  | VString b | VRawString b => x_str2f64 E b 0
  | _ => 0
  end.
Definition time_of (v : value) : option (Z * Z) :=
  match v with
  | VInt _ _ | VDouble _ | VDateTime _ | VFloat _ => Some (x_totime E (dbl_of v))
  | VString b | VRawString b => parse_time T b
  | _ => None
  end.
(** [None]: a container or bytes. *)
Definition text_of (v : value) : option bytes :=
  match v with
  | VString b => Some b
  | VRawString b => Some (x_unescape E b)
  | VInt _ n => Some (fmt_int n)
  | VTrue => Some [116; 114; 117; 101]
  | VFalse => Some [102; 97; 108; 115; 101]
  | VNull => Some [110; 117; 108; 108]
  | VDouble x => Some (x_fmt_f64 E x)
  | VFloat x => Some (x_fmt_f64 E (x_f32_to_f64 E (x mod 2^32)))
  | VDateTime x => Some (x_fmt_time E x)
  | VExBinary _ _ | VNan | VInf => Some []
  | VObject _ _ | VArray _ | VBinary _ _ | VNilP => None
  end.

(** Entries exported as text. *)
Fixpoint texts (kvs : list (bytes * value)) : option (list (bytes * bytes)) :=
  match kvs with
  | [] => Some []
  | (k, v) :: r => match text_of v, texts r with Some b, Some t => Some ((k, b) :: t) | _, _ => None end
  end.
(** ** Go maps *)
Definition go_get {A} (m : list (bytes * A)) (k : bytes) : option A :=
  match find (fun kx => beq (fst kx) k) m with Some kx => Some (snd kx) | None => None end.
(** The last entry for a key. *)
Definition last_of {A} (l : list (bytes * A)) (k : bytes) : option A := go_get (rev l) k.

(** The Go value an object should become: a map for an object, a slice for an array. *)
Fixpoint ideal (v : value) : gout :=
  match v with
  | VObject _ kvs => XMap (map (fun kv => (fst kv, ideal (snd kv))) kvs)
  | VArray l => XSlice (map ideal l)
  | VString b => XStr b
  | VRawString b => XStr (x_unescape E b)
  | VInt _ n => XInt n
  | VDouble x => XF64 x
  | VFloat x => XF32 (x mod 2^32)
  | VDateTime x => XTime (Some (x_totime E x))
  | VBinary _ b => XBytes b
  | VExBinary _ b => XBytes (tl b)
  | VTrue => XBool true
  | VFalse => XBool false
  | _ => XNil
  end.
(** No nil pointer in the tree. *)
Fixpoint solid (v : value) : Prop :=
  match v with
  | VObject _ kvs => (fix go l := match l with [] => True | kv :: r => solid (snd kv) /\ go r end) kvs
  | VArray l => (fix go l := match l with [] => True | x :: r => solid x /\ go r end) l
  | VNilP => False
  | _ => True
  end.
(** ... no array, NaN or infinity either, and the keys are distinct. *)
Fixpoint exportable (v : value) : Prop :=
  match v with
  | VObject _ kvs => NoDup (map fst kvs) /\
      (fix go l := match l with [] => True | kv :: r => exportable (snd kv) /\ go r end) kvs
  | VArray _ | VNilP | VNan | VInf => False
  | _ => True
  end.
(** What an entry becomes: the elements of arrays are lost, and NaN and infinity are left out. *)
Definition gather (f : value -> option gout) (kvs : list (bytes * value)) : list (bytes * gout) :=
  (fix go l := match l with
     | [] => []
     | (k, v) :: r => match f v with Some x => (k, x) :: go r | None => go r end
     end) kvs.
Definition as_map (l : list (bytes * gout)) : list (bytes * gout) := fold_left (fun m kx => go_set m (fst kx) (snd kx)) l [].
Fixpoint std (v : value) : option gout :=
  match v with
  | VObject _ kvs => Some (XMap (as_map (gather std kvs)))
  | VArray l => Some (XSlice (repeat XNil (length l)))
  | VNan | VInf | VNilP => None
  | _ => Some (ideal v)
  end.

(** ** Structs
    The content of a variable of type [t] after an object was decoded into it.  Each field receives,
    in order, the values of the keys that hit it and no field before it.  [None]: the call panics, or
    [String] of a container is needed, or the conversion depends on whether a raw string was unescaped. *)
Fixpoint chain {A B} (f : B -> A -> option B) (d : B) (l : list A) : option B :=
  match l with
  | [] => Some d
  | x :: r => match f d x with Some d' => chain f d' r | None => None end
  end.
Fixpoint all_of {A B} (f : A -> option B) (l : list A) : option (list B) :=
  match l with
  | [] => Some []
  | x :: r => match f x, all_of f r with Some y, Some ys => Some (y :: ys) | _, _ => None end
  end.
(** The values whose key hits [name] but none of the names [before]. *)
Definition sent (ic : bool) (before : list bytes) (name : bytes) (kvs : list (bytes * value)) : list value :=
  map snd (filter (fun kv => hits E ic (fst kv) name && negb (existsb (hits E ic (fst kv)) before)) kvs).
Definition entries (v : value) : list (bytes * value) :=
  match v with
  | VObject _ kvs => kvs
  | VArray l => map (fun x => ([], x)) l
  | _ => []
  end.
Definition bool_of (v : value) : bool :=
  match v with
  | VTrue => true
  | VInt _ n => 0 <? n
  | VDouble x | VDateTime x | VFloat x => 0 <? to_i64 x
  | VString b | VRawString b => x_fold E b [116; 114; 117; 101]
  | _ => false
  end.
(** Unescaping a raw string does not change the conversion. *)
Definition firm {A} (f : value -> A) (same : A -> A -> bool) (v : value) : bool :=
  match v with VRawString b => same (f v) (f (VString (x_unescape E b))) | _ => true end.
Definition same_time (a b : option (Z * Z)) : bool :=
  match a, b with
  | None, None => true
  | Some x, Some y => (fst x =? fst y) && (snd x =? snd y)
  | _, _ => false
  end.
Definition unless (ro : bool) (d : slot) : option slot := if ro then None else Some d.
Fixpoint conv (ic : bool) (t : gtype) (ro : bool) (d : slot) (v : value) {struct t} : option slot :=
  match t with
  | YSkip => Some d
  | _ =>
    match v with
    | VNilP => None
    | _ =>
      match t with
      | YStr => match text_of v with Some b => unless ro (LStr b) | None => None end
      | YInt w => if negb (firm int_of Z.eqb v) then None else unless ro (LInt (wrap_int w (int_of v)))
      | YUint w => if negb (firm int_of Z.eqb v) then None else unless ro (LInt (wrap_uint w (to_u64 (int_of v))))
      | YF32 => if negb (firm dbl_of Z.eqb v) then None else unless ro (LF32 (x_f64_to_f32 E (dbl_of v)))
      | YF64 => if negb (firm dbl_of Z.eqb v) then None else unless ro (LF64 (dbl_of v))
      | YBool => if negb (firm bool_of Bool.eqb v) then None else unless ro (LBool (bool_of v))
      | YTime => if negb (firm time_of same_time v) then None else unless ro (LTime (time_of v))
      | YSlice et =>
          match v, d with
          | VArray (_ :: _), LSlice (S _) _ => None
          | VArray ((_ :: _) as l), LSlice O _ =>
              if ro then None
              else match et with
                   | YTime => None
                   | YSkip => Some (LSlice (length l) (repeat LSkip (length l)))
                   | _ => match all_of (conv ic et false (zero et)) l with
                          | Some ds => Some (LSlice (length l) ds)
                          | None => None
                          end
                   end
          | _, _ => Some d
          end
      | YStruct fs =>
          match d with
          | LStruct ds =>
              match (fix go (before : list bytes) (fs : list (bytes * bool * gtype)) (ds : list slot) : option (list slot) :=
                       match fs, ds with
                       | (name, exported, ft) :: fs', d :: ds' =>
                           match chain (conv ic ft (ro || negb exported)) d (sent ic before name (entries v)),
                                 go (name :: before) fs' ds' with
                           | Some d1, Some ds1 => Some (d1 :: ds1)
                           | _, _ => None
                           end
                       | _, _ => Some ds
                       end) [] fs ds with
              | Some ds' => Some (LStruct ds')
              | None => None
              end
          | _ => None
          end
      | YSkip => Some d
      end
    end
  end.
End Spec.
