(** Value trees: the user-visible unfolding of a [*DxValue] (dxvalue.go:146-155).

    The constructor is the [DataType] (dxvalue.go:14-31).  Only the fields the
    code reads for that type are kept: the pairs and the [keysUnescaped] flag of
    an object (dxvalue.go:43-46), the elements of an array, the string, the
    8-byte slot [simpleV] of numbers, [fbinary], and [ExtType] where some function reads it
    (integers and binaries).  Simplification: fields that belong to another type
    (and can only be seen again after changing [DataType] by hand) are dropped here;
    the heap model (HeapModel.v) keeps all fields. *)
From Verif Require Import Base.

Inductive value : Type :=
| VNilP                                                  (* nil pointer *)
| VObject (unescaped : bool) (kvs : list (bytes * value))
| VArray (l : list value)
| VString (s : bytes)
| VRawString (s : bytes)
| VInt (ext : Z) (n : Z)              (* simpleV read as int64 *)
| VFloat (raw : Z)                    (* simpleV as uint64; the float32 is its low half *)
| VDouble (bits : Z)                  (* simpleV as uint64 *)
| VDateTime (bits : Z)
| VBinary (ext : Z) (b : bytes)
| VExBinary (ext : Z) (b : bytes)     (* MsgPack: first byte is the ext type *)
| VNull | VTrue | VFalse | VNan | VInf.

(** Induction principle through the nested lists. *)
Section ValueInd.
  Variable P : value -> Prop.
  Hypothesis Hnil : P VNilP.
  Hypothesis Hobj : forall u kvs, Forall (fun kv => P (snd kv)) kvs -> P (VObject u kvs).
  Hypothesis Harr : forall l, Forall P l -> P (VArray l).
  Hypothesis Hstr : forall s, P (VString s).
  Hypothesis Hraw : forall s, P (VRawString s).
  Hypothesis Hint : forall e n, P (VInt e n).
  Hypothesis Hflt : forall r, P (VFloat r).
  Hypothesis Hdbl : forall r, P (VDouble r).
  Hypothesis Hdat : forall r, P (VDateTime r).
  Hypothesis Hbin : forall e b, P (VBinary e b).
  Hypothesis Hexb : forall e b, P (VExBinary e b).
  Hypothesis Hnull : P VNull.
  Hypothesis Htrue : P VTrue.
  Hypothesis Hfalse : P VFalse.
  Hypothesis Hnan : P VNan.
  Hypothesis Hinf : P VInf.
  Fixpoint value_ind' (v : value) : P v :=
    match v with
    | VNilP => Hnil
    | VObject u kvs => Hobj u kvs
        ((fix go (l : list (bytes * value)) : Forall (fun kv => P (snd kv)) l :=
            match l with
            | [] => Forall_nil _
            | kv :: l' => Forall_cons kv (value_ind' (snd kv)) (go l')
            end) kvs)
    | VArray l => Harr l
        ((fix go (l : list value) : Forall P l :=
            match l with
            | [] => Forall_nil _
            | x :: l' => Forall_cons x (value_ind' x) (go l')
            end) l)
    | VString s => Hstr s
    | VRawString s => Hraw s
    | VInt e n => Hint e n
    | VFloat r => Hflt r
    | VDouble r => Hdbl r
    | VDateTime r => Hdat r
    | VBinary e b => Hbin e b
    | VExBinary e b => Hexb e b
    | VNull => Hnull
    | VTrue => Htrue
    | VFalse => Hfalse
    | VNan => Hnan
    | VInf => Hinf
    end.
End ValueInd.

(** [key_match E k name]: the comparison used by every lookup
    (dxvalue.go:61,80,102,120: [IgnoreCase && strings.EqualFold(K,name) || K == name]). *)
Definition key_match (E : env) (k name : bytes) : bool :=
  (ignore_case E && x_fold E k name) || beq k name.

(** First index whose key matches (the scanning loops, dxvalue.go:60-65 etc.). *)
Fixpoint find_key {A} (E : env) (kvs : list (bytes * A)) (name : bytes) : option nat :=
  match kvs with
  | [] => None
  | (k, _) :: r => if key_match E k name then Some O else option_map S (find_key E r name)
  end.

(** [VObject.UnEscapestrs] (dxvalue.go:135-144). *)
Definition unescape_keys {A} (E : env) (u : bool) (kvs : list (bytes * A)) : list (bytes * A) :=
  if u then kvs else map (fun kv => (x_unescape E (fst kv), snd kv)) kvs.

(** [VObject.indexByName] (dxvalue.go:99-115): index, and the object's flag and pairs
    afterwards (the second scan happens after [UnEscapestrs], dxvalue.go:108). *)
Definition index_by_name {A} (E : env) (u : bool) (kvs : list (bytes * A)) (name : bytes)
  : option nat * (bool * list (bytes * A)) :=
  let second :=
    let kvs' := unescape_keys E u kvs in (find_key E kvs' name, (true, kvs')) in
  if negb u && no_backslash name then
    match find_key E kvs name with
    | Some i => (Some i, (u, kvs))
    | None => second
    end
  else second.

Fixpoint set_nth {A} (n : nat) (x : A) (l : list A) : list A :=
  match l, n with
  | [], _ => []
  | _ :: l', O => x :: l'
  | y :: l', S n' => y :: set_nth n' x l'
  end.

(** Replace the value (not the key) of pair [i]. *)
Definition set_val {A} (i : nat) (x : A) (kvs : list (bytes * A)) : list (bytes * A) :=
  match nth_error kvs i with
  | Some (k, _) => set_nth i (k, x) kvs
  | None => kvs
  end.

(** [SetKeyValue] on a value whose type is VT_Object (dxvalue.go:1170-1177). *)
Definition obj_set {A} (E : env) (u : bool) (kvs : list (bytes * A)) (name : bytes) (x : A)
  : bool * list (bytes * A) :=
  match index_by_name E u kvs name with
  | (Some i, (u', kvs')) => (u', set_val i x kvs')
  | (None, (u', kvs')) => (u', kvs' ++ [(name, x)])
  end.

(** [SetKeyValue] on an object held as a value tree. *)
Definition set_key_value (E : env) (v : value) (name : bytes) (x : value) : value :=
  match v with
  | VObject u kvs => let (u', kvs') := obj_set E u kvs name x in VObject u' kvs'
  | _ => v
  end.
