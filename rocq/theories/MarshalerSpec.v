(** The trees that stand for Go values with [EncodeToDxValue] methods. *)
From Verif Require Import Base Values HeapModel HeapSpec MsgLoadSpec ReflectModel ReflectSpec MarshalerModel.

(** A new, empty integer. *)
Definition blank (c : cell) : Prop :=
  c_dt c = TInt /\ c_ext c = 0 /\ c_unesc c = false /\ c_kvs c = [] /\ c_str c = [] /\ c_bin c = [] /\ c_arr c = [].

(** A method that makes [v] of the new integer it is given: it returns, the value reads as [v],
    no other value in use changes, and all it hangs below the value is new. *)
Definition writes (m : st -> nat -> res st) (v : value) : Prop :=
  forall s x, wf s -> live s x -> (5 <= x)%nat -> blank (hp s x) ->
  exists s', m s x = Ok s' /\ wf s' /\ (nc s <= nc s')%nat /\ shows (hp s') (Some x) v /\
    (forall z, live s z -> z <> x -> hp s' z = hp s z) /\ (forall z, live s z -> live s' z) /\
    (forall z, reach (hp s') x z -> z = x \/ (z < 5)%nat \/ (~ live s z /\ live s' z)).

Section Spec.
Variable E : env.
Variable run : nat -> st -> nat -> res st.
(** What the methods are meant to make. *)
Variable says : nat -> value.
(** The locations of the [DxValue]s in the argument and everything below them, the memory before the call,
    and what they read as. *)
Variable X : nat -> Prop.
Variable h0 : nat -> cell.
Variable dx : nat -> value.
Definition lentv (m : nat) : Prop := X m /\ shows h0 (Some m) (dx m).

(** The tree of a Go value: where the type has the method, what the method makes. *)
Fixpoint mgoal (x : mval) : value :=
  match x with
  | MPlain g => goal E g
  | MObj ptr n x' => if ptr then mgoal x' else says n
  | MPtr x' => match x' with MObj _ n _ => says n | _ => mgoal x' end
  | MNilPtr _ n => says n
  | MMap kvs | MRMap _ kvs => obj_of (map (fun kv => (fst kv, mgoal (snd kv))) kvs)
  | MList l | MRSlice _ l => VArray (map mgoal l)
  | MStruct fs => obj_of (map (fun f => (fst (fst (fst f)), mgoal (snd f))) fs)
  | MDx p => match p with Some m => dx m | None => VNilP end
  | MDxVal m => dx m
  end.

Definition mname (f : bytes * bool * bool * mval) : bytes * mval := (fst (fst (fst f)), snd f).
Definition loses_method (x : mval) : Prop := match x with MObj true _ _ => True | _ => False end.

(** The values that are imported so.  [rv]: element of a typed slice. *)
Fixpoint mkept (rv : bool) (x : mval) : Prop :=
  match x with
  | MPlain g => kept E rv g
  | MObj ptr n x' => if ptr then mkept false x' else writes (run n) (says n)
  | MPtr x' =>
      match x' with
      | MObj ptr n _ => (rv = true -> ptr = false) /\ writes (run n) (says n)
      | MPlain g => if rv then kept E true g else kept E false (GPtr g)
      | MPtr _ => rv = true /\ mkept true x'
      | MNilPtr _ _ => False
      | MDx _ => rv = true /\ mkept true x'
      | _ => mkept rv x'
      end
  | MNilPtr ptr n => rv = false /\ ptr = true /\ writes (run n) (says n)
  | MMap kvs => no_clash E kvs /\
      (fix go l := match l with [] => True | kv :: r => mkept false (snd kv) /\ go r end) kvs
  | MList l => (fix go l := match l with [] => True | x :: r => mkept false x /\ go r end) l
  | MStruct fs => no_clash E (map mname fs) /\
      (fix go (l : list (bytes * bool * bool * mval)) := match l with
         | [] => True
         | (_, exported, iface, x) :: r =>
             (if iface then exported = true /\ mkept false x
              else match x with
                   | MPlain g => kept E false (GStruct [([], exported, false, g)])
                   | MNilPtr _ _ | MDx None => False
                   | MPtr x' => exported = true /\ by_kind x' = None /\ ~ loses_method x' /\ mkept false x'
                   | _ => exported = true /\ by_kind x = None /\ mkept false x
                   end) /\ go r
         end) fs
  | MRMap iface kvs => kvs <> [] /\ no_clash E kvs /\
      (fix go (l : list (bytes * mval)) := match l with
         | [] => True
         | (_, x) :: r =>
             (if iface then mkept false x
              else match x with
                   | MPlain g => kept E false (GRMap false [([], g)])
                   | MNilPtr _ _ | MDx None => False
                   | MPtr x' => by_kind x' = None /\ ~ loses_method x' /\ mkept false x'
                   | _ => by_kind x = None /\ mkept false x
                   end) /\ go r
         end) kvs
  | MRSlice iface l => (fix go l := match l with [] => True | x :: r => mkept (negb iface) x /\ go r end) l
  | MDx p => match p with Some m => lentv m | None => rv = false end
  | MDxVal m => lentv m
  end.
(** A map, a slice or a struct. *)
Definition boxed (x : mval) : Prop :=
  match x with MMap _ | MList _ | MStruct _ | MRMap _ _ | MRSlice _ _ => True | _ => False end.
End Spec.
