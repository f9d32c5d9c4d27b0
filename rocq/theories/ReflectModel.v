(** Importing Go values: [SetValue], [SetKeyvalue] and [SetIndexvalue] of reflect_parse.go, and
    [getRealValue] and [NewValueFrom] of dxvalue.go. *)
From Verif Require Import Base Values HeapModel MsgPackModel MsgLoadModel.

(** ** Go values
    What the three functions distinguish about the dynamic type of their argument.  Left out:
    [DxValue] and [*DxValue] arguments (MarshalerModel.v; [NewValueFrom] with them is at the end of
    this file), types with an [EncodeToDxValue] method (MarshalerModel.v), and maps whose key is a pointer. *)
Inductive gscalar :=
| SInt (n : Z)      (* int, int8, ..., int64 *)
| SUint (n : Z)     (* uint, uint8, ..., uint64 *)
| SStr (b : bytes)
| SBool (b : bool)
| SF32 (bits : Z)
| SF64 (bits : Z).
Inductive goval :=
| GNil                                   (* the nil interface *)
| GSc (named : bool) (x : gscalar)       (* [named]: of a type declared over the basic type *)
| GTime (t : Z * Z)                      (* time.Time *)
| GBytes (b : bytes)                     (* []byte *)
| GMap (kvs : list (bytes * goval))      (* map[string]interface{}, in the order of the iteration *)
| GMapStr (kvs : list (bytes * bytes))   (* map[string]string *)
| GMapInt (kvs : list (bytes * Z))       (* map[string]int *)
| GList (l : list goval)                 (* []interface{} *)
| GStrs (l : list bytes)                 (* []string *)
| GStruct (fs : list (bytes * bool * bool * goval))
    (* any other struct: name, exported, declared with an interface type, content *)
| GRMap (iface : bool) (kvs : list (bytes * goval))
    (* any other map with string keys, in the order of [MapKeys]; [iface]: the elements are
       declared with an interface type *)
| GRSlice (iface : bool) (l : list goval)   (* any other slice *)
| GPtr (g : goval)                       (* a pointer *)
| GNilPtr (listed : bool)                (* a nil pointer; [listed]: of a type in the type switches *)
| GOther.                                (* func, chan, map with other keys, ... *)

(** Where a value goes: into the value itself, below a key, or at an index. *)
Inductive dest := DRoot (l : nat) | DKey (l : nat) (name : bytes) | DIdx (l : nat) (idx : Z).

Section Reflect.
Variable E : env.
Variable G : nat -> nat.

(** [SetBinary] (bin_value.go:54-75).  [valueClone] only decides about sharing the bytes. *)
Definition SetBinary (s : st) (l : nat) (b : bytes) : st :=
  match c_dt (hp s l) with
  | TBinary => set_cell s l (w_bin (hp s l) b)
  | TExBinary =>
      match c_bin (hp s l) with
      | x :: _ => set_cell s l (w_bin (hp s l) (x :: b))
      | [] => let s1 := Reset s l TBinary in set_cell s1 l (w_bin (hp s1 l) b)
      end
  | _ => s
  end.

(** The cell that receives the value: [v.Reset] in [SetValue], [v.SetKeyCached] in [SetKeyvalue],
    [v.SetIndexCached] in [SetIndexvalue]. *)
Definition acquire (s : st) (d : dest) (t : vtype) (c : option nat) : res (nat * st) :=
  match d with
  | DRoot l => Ok (l, Reset s l t)
  | DKey l name => SetKeyCached E G s l name t c
  | DIdx l idx => Ok (SetIndexCached G s l idx t c)
  end.

(** The cases for the basic types and pointers to them (reflect_parse.go:194-255, 459-528, 695-764). *)
Definition put_scalar (s : st) (d : dest) (x : gscalar) (c : option nat) : res st :=
  match d with
  | DRoot l =>
      Ok match x with
         | SInt n | SUint n => SetInt s l n
         | SStr b => SetString s l b
         | SBool b => SetBool s l b
         | SF32 v => SetFloat s l v
         | SF64 v => SetDouble s l v
         end
  | _ =>
      match x with
      | SInt n | SUint n => do (r, s1) <- acquire s d TInt c; Ok (SetInt s1 r n)
      | SStr b => do (r, s1) <- acquire s d TString c; Ok (SetString s1 r b)
      | SBool b =>
          let p := Some (if b then loc_true else loc_false) in
          Ok match d with
             | DKey l name => SetKeyValue E G s l name p
             | DIdx l idx => SetIndexValue s l idx p
             | DRoot _ => s
             end
      | SF32 v => do (r, s1) <- acquire s d TFloat c; Ok (SetFloat s1 r v)
      | SF64 v => do (r, s1) <- acquire s d TDouble c; Ok (SetDouble s1 r v)
      end
  end.
(** The cases by [Kind] for struct fields (357-372, 613-628, 843-858) and elements of other maps
    (407-423, 653-669, 883-899).  [fv.Int()] panics on an unsigned field. *)
Definition put_kind (field : bool) (s : st) (l : nat) (name : bytes) (x : gscalar) (c : option nat) : res st :=
  match x with
  | SUint n => if field then Panic else do (r, s1) <- SetKeyCached E G s l name TInt c; Ok (SetInt s1 r n)
  | SF32 v => do (r, s1) <- SetKeyCached E G s l name TDouble c; Ok (SetFloat s1 r v)
  | _ => put_scalar s (DKey l name) x c
  end.

(** The loops over the elements of the argument. *)
Definition over_keys {A} (f : st -> bytes -> A -> res st) : list (bytes * A) -> st -> res st :=
  fix go (kvs : list (bytes * A)) (s : st) : res st :=
    match kvs with
    | [] => Ok s
    | (k, x) :: r => do s1 <- f s k x; go r s1
    end.
Definition over_list {A} (f : st -> Z -> A -> res st) : Z -> list A -> st -> res st :=
  fix go (i : Z) (l : list A) (s : st) : res st :=
    match l with
    | [] => Ok s
    | x :: r => do s1 <- f s i x; go (i + 1) r s1
    end.
Definition over_fields (f : st -> bytes -> bool -> bool -> goval -> res st) :
    list (bytes * bool * bool * goval) -> st -> res st :=
  fix go (fs : list (bytes * bool * bool * goval)) (s : st) : res st :=
    match fs with
    | [] => Ok s
    | (name, exported, iface, x) :: r => do s1 <- f s name exported iface x; go r s1
    end.

(** A pointer to a value of these types is none of the cases of the type switch, and its [Elem] is
    neither struct, map nor slice. *)
Definition ptr_ignored (g : goval) : bool :=
  match g with
  | GSc false (SStr _) | GSc true _ | GNil | GPtr _ | GNilPtr _ | GOther => true
  | _ => false
  end.

(** [SetValue] (189-455), [SetKeyvalue] (457-691) and [SetIndexvalue] (693-922) differ in how they
    obtain the cell and in the following points:
    - [SetIndexvalue] panics on a nil pointer that is not in its type switch ([reflectv.Type()] of
      the zero [Value]), the other two do nothing;
    - for a pointer to a map[string]string, the last two take the new object from [v.ownercache];
    - a time is stored by [SetDouble], which in [SetValue] does not make the value a time.
    [rv]: the argument is the element of a slice, to which [getRealValue] (dxvalue.go:1192-1205)
    was applied; nil there becomes a null cell (446-447, 682-683, 913-914). *)
Fixpoint assign (rv : bool) (g : goval) (s : st) (d : dest) (c : option nat) {struct g} : res st :=
  match g with
  | GNil | GOther => Ok s
  | GSc true _ => Ok s
  | GSc false x => put_scalar s d x c
  | GTime t =>
      match d with
      | DRoot l => Ok (SetDouble s l (x_delphi E t))
      | _ => do (r, s1) <- acquire s d TDateTime c; Ok (SetDouble s1 r (x_delphi E t))
      end
  | GBytes b =>
      match d with
      | DRoot l => Ok (SetBinary s l b)
      | _ => do (r, s1) <- acquire s d TBinary c; Ok (SetBinary s1 r b)
      end
  | GMap kvs =>
      do (r, s1) <- acquire s d TObject c;
      over_keys (fun s k x => assign false x s (DKey r k) c) kvs s1
  | GMapStr kvs =>
      do (r, s1) <- acquire s d TObject c;
      over_keys (fun s k x => put_scalar s (DKey r k) (SStr x) c) kvs s1
  | GMapInt kvs =>
      do (r, s1) <- acquire s d TObject c;
      over_keys (fun s k x => put_scalar s (DKey r k) (SInt x) c) kvs s1
  | GList l =>
      do (r, s1) <- acquire s d TArray c;
      over_list (fun s i x => assign false x s (DIdx r i) c) 0 l s1
  | GStrs l =>
      do (r, s1) <- acquire s d TArray c;
      over_list (fun s i x => put_scalar s (DIdx r i) (SStr x) c) 0 l s1
  | GStruct fs =>
      do (r, s1) <- acquire s d TObject c;
      over_fields (fun s name exported iface x =>
        if iface then if exported then assign false x s (DKey r name) c else Ok s
        else
          match x with
          | GNilPtr _ => Panic                        (* [Elem] is the zero [Value] *)
          | GSc _ y | GPtr (GSc _ y) => put_kind true s r name y c
          | GPtr x' => if exported then assign false x' s (DKey r name) c else Ok s
          | _ => if exported then assign false x s (DKey r name) c else Ok s
          end) fs s1
  | GRMap iface kvs =>
      match kvs with
      | [] => Ok s
      | _ :: _ =>
          do (r, s1) <- acquire s d TObject c;
          over_keys (fun s k x =>
            if iface then assign false x s (DKey r k) c
            else
              match x with
              | GNilPtr _ => Panic
              | GSc _ y | GPtr (GSc _ y) => put_kind false s r k y c
              | GPtr x' => assign false x' s (DKey r k) c
              | _ => assign false x s (DKey r k) c
              end) kvs s1
      end
  | GRSlice iface l =>
      do (r, s1) <- acquire s d TArray c;
      over_list (fun s i x => assign (negb iface) x s (DIdx r i) c) 0 l s1
  | GPtr g' =>
      if rv then assign true g' s d c
      else if ptr_ignored g' then Ok s
      else
        match g', d with
        | GMapStr kvs, DKey l _ | GMapStr kvs, DIdx l _ =>
            do (r, s1) <- acquire s d TObject (c_own (hp s l));
            over_keys (fun s k x => put_scalar s (DKey r k) (SStr x) c) kvs s1
        | _, _ => assign false g' s d c
        end
  | GNilPtr listed =>
      if rv then do (_, s1) <- acquire s d TNull c; Ok s1
      else if listed then Panic
      else match d with DIdx _ _ => Panic | _ => Ok s end
  end.

Definition SetValue (s : st) (l : nat) (g : goval) : res st :=
  if ReadOnly l then Ok s else assign false g s (DRoot l) (c_own (hp s l)).
Definition SetKeyvalue (s : st) (l : nat) (name : bytes) (g : goval) (c : option nat) : res st :=
  assign false g s (DKey l name) c.
Definition SetIndexvalue (s : st) (l : nat) (idx : Z) (g : goval) (c : option nat) : res st :=
  assign false g s (DIdx l idx) c.

(** ** [NewValueFrom] (dxvalue.go:175-186) *)
(** The value it starts from.  [cached]: what the pool hands out, if the flag is set. *)
Definition new_slot (s : st) (cached : option (option nat)) : nat * st :=
  match cached with
  | Some choice => NewCacheValue G s choice TInt
  | None => (nx s, mkSt (upd (hp s) (nx s) zero_cell) (S (nx s)) (cs s) (nc s) (pl s))
  end.
Definition NewValueFrom (s : st) (cached : option (option nat)) (g : goval) : res (nat * st) :=
  let (l, s1) := new_slot s cached in
  do s2 <- SetValue s1 l g; Ok (l, s2).
(** ... of a [*DxValue]: [CopyFrom] with no cache (reflect_parse.go:236-239); nil is dereferenced. *)
Definition NewValueFromDx (fuel : nat) (s : st) (cached : option (option nat)) (p : ptr) : res (nat * st) :=
  let (l, s1) := new_slot s cached in
  match p with
  | None => Panic
  | Some m => do s2 <- CopyFrom G fuel s1 l m None; Ok (l, s2)
  end.
(** ... of a map[string]interface{} and of a []interface{} whose elements are [*DxValue]
    (reflect_parse.go:264-269, 501-502 and 300-305, 737-738). *)
Definition NewValueFromDxMap (s : st) (cached : option (option nat)) (kvs : list (bytes * ptr)) : res (nat * st) :=
  let (l, s1) := new_slot s cached in
  do s2 <- over_keys (fun s k p => Ok (SetKeyValue E G s l k p)) kvs (Reset s1 l TObject); Ok (l, s2).
Definition NewValueFromDxList (s : st) (cached : option (option nat)) (ps : list ptr) : res (nat * st) :=
  let (l, s1) := new_slot s cached in
  do s2 <- over_list (fun s i p => Ok (SetIndexValue s l i p)) 0 ps (Reset s1 l TArray); Ok (l, s2).
End Reflect.
