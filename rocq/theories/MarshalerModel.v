(** Importing Go values some of which have an [EncodeToDxValue] method or are [DxValue]s: the branches of [SetValue],
    [SetKeyvalue] and [SetIndexvalue] (reflect_parse.go) that ReflectModel.v leaves out. *)
From Verif Require Import Base Values HeapModel ReflectModel MarshalModel.

(** ** Go values
    The methods are numbered: [n] stands for the code of [EncodeToDxValue] together with its receiver.
    Simplification: a field or an element that is declared with an interface type is declared
    [interface{}] (with a type that has the method itself, only nil would be treated differently).
    A [DxValue] (not a pointer) is given by the location it was copied from.  The code stores the address
    of another copy; the two share the memory of their lists, which shows only when one of them is
    changed later (or when it is the receiver of the call itself) and is not in the model. *)
Inductive mval :=
| MPlain (g : goval)                      (* no method anywhere in it *)
| MObj (ptr : bool) (n : nat) (x : mval)
    (* a value of a declared type with the method; [ptr]: with a pointer as receiver; [x]: the value
       without the method, a basic value being [GSc true] *)
| MPtr (x : mval)                         (* a pointer *)
| MNilPtr (ptr : bool) (n : nat)          (* a nil pointer to such a type *)
| MMap (kvs : list (bytes * mval))        (* map[string]interface{}, in the order of the iteration *)
| MList (l : list mval)                   (* []interface{} *)
| MStruct (fs : list (bytes * bool * bool * mval))
    (* any other struct: name, exported, declared with an interface type, content *)
| MRMap (iface : bool) (kvs : list (bytes * mval))   (* any other map with string keys *)
| MRSlice (iface : bool) (l : list mval)             (* any other slice *)
| MDx (p : ptr)                                      (* *DxValue *)
| MDxVal (m : nat).                                  (* DxValue *)

(** [reflect.Value.Kind], where it is a basic one: the declared type does not matter. *)
Fixpoint by_kind (x : mval) : option gscalar :=
  match x with
  | MPlain (GSc _ y) => Some y
  | MObj _ _ x' => by_kind x'
  | _ => None
  end.

Definition over_named {A} (f : st -> bytes -> bool -> bool -> A -> res st) : list (bytes * bool * bool * A) -> st -> res st :=
  fix go (fs : list (bytes * bool * bool * A)) (s : st) : res st :=
    match fs with
    | [] => Ok s
    | (name, exported, iface, x) :: r => do s1 <- f s name exported iface x; go r s1
    end.

(** A field ([field], 353-388, 609-634, 839-864) or an element of a map (402-438, 648-675, 878-905)
    without a method, not declared with an interface type: the bodies of these loops in [assign]. *)
Definition assign_field (E : env) (G : nat -> nat) (field exported : bool) (g : goval) (s : st) (r : nat) (name : bytes) (c : option nat) : res st :=
  match g with
  | GNilPtr _ => Panic
  | GSc _ y | GPtr (GSc _ y) => put_kind E G field s r name y c
  | GPtr g' => if exported then assign E G false g' s (DKey r name) c else Ok s
  | _ => if exported then assign E G false g s (DKey r name) c else Ok s
  end.

Section Marshaler.
Variable E : env.
Variable G : nat -> nat.
(** What method [n] does with the value it is given. *)
Variable run : nat -> st -> nat -> res st.

(** The call of the method: on the receiver itself in [SetValue] (326-329), on a new integer in
    [SetKeyvalue] (589-592) and [SetIndexvalue] (825-829); so for the fields of a struct (374-378) and
    the elements of a map (425-429) in [SetValue]. *)
Definition call (n : nat) (s : st) (d : dest) (c : option nat) : res st :=
  match d with
  | DRoot l => run n s l
  | _ => do (r, s1) <- acquire E G s d TInt c; run n s1 r
  end.

(** [SetKeyValue] and [SetIndexValue] in the cases for [DxValue]s (501-504, 737-740).  In [SetValue] these are
    not reached for elements. *)
Definition store (s : st) (d : dest) (p : ptr) : st :=
  match d with
  | DRoot _ => s
  | DKey l name => SetKeyValue E G s l name p
  | DIdx l idx => SetIndexValue s l idx p
  end.
Definition store_copy (s : st) (d : dest) (m : nat) : st := store (copy_of s m) d (Some (nx s)).

(** [SetValue] (189-455), [SetKeyvalue] (457-691), [SetIndexvalue] (693-922).  The argument of a
    type switch branch never has the method.  A pointer has it whatever the receiver is
    ([Type.Implements]); with a value receiver a nil pointer panics in the call.
    Fields and elements of a declared type lose one pointer (354-356, 404-406, 610-612, 650-652,
    840-842, 880-882) and are stored by their kind, if it is basic, before anything else is asked.
    Elements of a slice lose all pointers ([rv], [getRealValue], dxvalue.go:1192-1205). *)
Fixpoint massign (rv : bool) (x : mval) (s : st) (d : dest) (c : option nat) {struct x} : res st :=
  match x with
  | MPlain g => assign E G rv g s d c
  | MObj false n _ => call n s d c
  | MObj true _ x' => massign false x' s d c
  | MPtr x' =>
      if rv then massign true x' s d c
      else
        match x' with
        | MObj _ n _ => call n s d c
        | MPlain g => assign E G false (GPtr g) s d c
        | MPtr _ | MNilPtr _ _ | MDx _ => Ok s
        | MDxVal m => Ok (store s d (Some m))
        | _ => massign false x' s d c
        end
  | MNilPtr ptr n =>
      if rv then do (_, s1) <- acquire E G s d TNull c; Ok s1
      else if ptr then call n s d c else Panic
  | MMap kvs =>
      do (r, s1) <- acquire E G s d TObject c;
      over_keys (fun s k x => massign false x s (DKey r k) c) kvs s1
  | MList l =>
      do (r, s1) <- acquire E G s d TArray c;
      over_list (fun s i x => massign false x s (DIdx r i) c) 0 l s1
  | MStruct fs =>
      do (r, s1) <- acquire E G s d TObject c;
      over_named (fun s name exported iface x =>
        if iface then if exported then massign false x s (DKey r name) c else Ok s
        else
          match x with
          | MNilPtr _ _ | MDx None => Panic           (* [Elem] is the zero [Value] *)
          | MDx (Some m) => if exported then Ok (store_copy s (DKey r name) m) else Ok s
          | MPlain g => assign_field E G true exported g s r name c
          | MPtr x' =>
              match by_kind x' with
              | Some y => put_kind E G true s r name y c
              | None => if exported then massign false x' s (DKey r name) c else Ok s
              end
          | _ =>
              match by_kind x with
              | Some y => put_kind E G true s r name y c
              | None => if exported then massign false x s (DKey r name) c else Ok s
              end
          end) fs s1
  | MRMap iface kvs =>
      match kvs with
      | [] => Ok s
      | _ :: _ =>
          do (r, s1) <- acquire E G s d TObject c;
          over_keys (fun s k x =>
            if iface then massign false x s (DKey r k) c
            else
              match x with
              | MNilPtr _ _ | MDx None => Panic
              | MDx (Some m) => Ok (store_copy s (DKey r k) m)
              | MPlain g => assign_field E G false true g s r k c
              | MPtr x' =>
                  match by_kind x' with
                  | Some y => put_kind E G false s r k y c
                  | None => massign false x' s (DKey r k) c
                  end
              | _ =>
                  match by_kind x with
                  | Some y => put_kind E G false s r k y c
                  | None => massign false x s (DKey r k) c
                  end
              end) kvs s1
      end
  | MRSlice iface l =>
      do (r, s1) <- acquire E G s d TArray c;
      over_list (fun s i x => massign (negb iface) x s (DIdx r i) c) 0 l s1
  | MDx p =>
      if rv then
        match p with
        | None => do (_, s1) <- acquire E G s d TNull c; Ok s1
        | Some m => Ok (store_copy s d m)
        end
      else Ok (store s d p)
  | MDxVal m => Ok (store_copy s d m)
  end.

(** [SetValue] copies a [DxValue] (236-239); [fuel] bounds the depth. *)
Definition MSetValue (fuel : nat) (s : st) (l : nat) (x : mval) : res st :=
  if ReadOnly l then Ok s
  else
    match x with
    | MDx None => Panic
    | MDx (Some m) => CopyFrom G fuel s l m None
    | MDxVal m => CopyFrom G fuel (copy_of s m) l (nx s) None
    | _ => massign false x s (DRoot l) (c_own (hp s l))
    end.
Definition MSetKeyvalue (s : st) (l : nat) (name : bytes) (x : mval) (c : option nat) : res st :=
  massign false x s (DKey l name) c.
Definition MSetIndexvalue (s : st) (l : nat) (idx : Z) (x : mval) (c : option nat) : res st :=
  massign false x s (DIdx l idx) c.
End Marshaler.
