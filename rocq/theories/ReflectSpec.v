(** The trees that stand for Go values, and equality up to the order of map iteration. *)
From Coq Require Import Permutation.
From Verif Require Import Base Values HeapModel ReflectModel.

(** ** Order of iteration *)
(** The same Go value, its maps iterated in another order, at any depth. *)
Inductive gperm : goval -> goval -> Prop :=
| gp_refl g : gperm g g
| gp_map kvs m kvs' : Forall2 (fun a b => fst a = fst b /\ gperm (snd a) (snd b)) kvs m -> Permutation m kvs' ->
    gperm (GMap kvs) (GMap kvs')
| gp_mapstr kvs kvs' : Permutation kvs kvs' -> gperm (GMapStr kvs) (GMapStr kvs')
| gp_mapint kvs kvs' : Permutation kvs kvs' -> gperm (GMapInt kvs) (GMapInt kvs')
| gp_rmap i kvs m kvs' : Forall2 (fun a b => fst a = fst b /\ gperm (snd a) (snd b)) kvs m -> Permutation m kvs' ->
    gperm (GRMap i kvs) (GRMap i kvs')
| gp_list l l' : Forall2 gperm l l' -> gperm (GList l) (GList l')
| gp_rslice i l l' : Forall2 gperm l l' -> gperm (GRSlice i l) (GRSlice i l')
| gp_struct fs fs' : Forall2 (fun a b => fst a = fst b /\ gperm (snd a) (snd b)) fs fs' -> gperm (GStruct fs) (GStruct fs')
| gp_ptr g g' : gperm g g' -> gperm (GPtr g) (GPtr g').
(** The same tree, the pairs of its objects in another order, at any depth. *)
Inductive vperm : value -> value -> Prop :=
| vp_refl v : vperm v v
| vp_obj u kvs m kvs' : Forall2 (fun a b => fst a = fst b /\ vperm (snd a) (snd b)) kvs m -> Permutation m kvs' ->
    vperm (VObject u kvs) (VObject u kvs')
| vp_arr l l' : Forall2 vperm l l' -> vperm (VArray l) (VArray l').

Section Spec.
Variable E : env.

(** ** The tree of a Go value *)
Definition some_keys {A} (l : list A) : bool := match l with [] => false | _ => true end.
Definition obj_of (kvs : list (bytes * value)) : value := VObject (some_keys kvs) kvs.
Definition sc_goal (x : gscalar) : value :=
  match x with
  | SInt n | SUint n => VInt 0 n
  | SStr b => VString b
  | SBool b => if b then VTrue else VFalse
  | SF32 v => VFloat v
  | SF64 v => VDouble v
  end.
Fixpoint goal (g : goval) : value :=
  match g with
  | GNil | GNilPtr _ | GOther => VNull
  | GSc _ x => sc_goal x
  | GTime t => VDateTime (x_delphi E t)
  | GBytes b => VBinary 0 b
  | GMap kvs | GRMap _ kvs => obj_of (map (fun kv => (fst kv, goal (snd kv))) kvs)
  | GMapStr kvs => obj_of (map (fun kv => (fst kv, VString (snd kv))) kvs)
  | GMapInt kvs => obj_of (map (fun kv => (fst kv, VInt 0 (snd kv))) kvs)
  | GList l | GRSlice _ l => VArray (map goal l)
  | GStrs l => VArray (map VString l)
  | GStruct fs => obj_of (map (fun f => (fst (fst (fst f)), goal (snd f))) fs)
  | GPtr g => goal g
  end.

(** ** Conditions *)
(** No two keys that the library takes for the same one. *)
Definition no_clash {A} (kvs : list (bytes * A)) : Prop :=
  ForallOrdPairs (fun a b => key_match E (fst a) (fst b) = false /\ key_match E (fst b) (fst a) = false) kvs.
(** What the Go types allow. *)
Definition in_type (x : gscalar) : Prop :=
  match x with
  | SInt n => - 2^63 <= n < 2^63
  | SUint n => 0 <= n < 2^64
  | SF32 v => 0 <= v < 2^32
  | _ => True
  end.
(** ... and an int64 can hold. *)
Definition sc_kept (x : gscalar) : Prop := in_type x /\ match x with SUint n => n < 2^63 | _ => True end.
Definition not_uint (x : gscalar) : Prop := match x with SUint _ => False | _ => True end.
Definition name_of (f : bytes * bool * bool * goval) : bytes * goval := (fst (fst (fst f)), snd f).

(** The Go values that the import keeps: no nil, no other unsupported value, no empty map of another
    type, no pointer to a string or to a pointer, ...  [rv]: element of a typed slice. *)
Fixpoint kept (rv : bool) (g : goval) : Prop :=
  match g with
  | GNil | GOther => False
  | GSc named x => named = false /\ sc_kept x
  | GTime _ | GBytes _ | GStrs _ => True
  | GMap kvs => no_clash kvs /\
      (fix go l := match l with [] => True | kv :: r => kept false (snd kv) /\ go r end) kvs
  | GMapStr kvs => no_clash kvs
  | GMapInt kvs => no_clash kvs /\ Forall (fun kv => in_type (SInt (snd kv))) kvs
  | GList l => (fix go l := match l with [] => True | x :: r => kept false x /\ go r end) l
  | GStruct fs => no_clash (map name_of fs) /\
      (fix go (l : list (bytes * bool * bool * goval)) := match l with
         | [] => True
         | (_, exported, iface, x) :: r =>
             match x with
             | GSc named y => if iface then exported = true /\ kept false x else sc_kept y /\ not_uint y
             | GPtr (GSc _ y) => if iface then exported = true /\ kept false x else sc_kept y /\ not_uint y
             | GPtr x' => exported = true /\ if iface then kept false x else kept false x'
             | _ => exported = true /\ kept false x
             end /\ go r
         end) fs
  | GRMap iface kvs => kvs <> [] /\ no_clash kvs /\
      (fix go (l : list (bytes * goval)) := match l with
         | [] => True
         | (_, x) :: r =>
             match x with
             | GSc named y => if iface then kept false x else sc_kept y
             | GPtr (GSc _ y) => if iface then kept false x else sc_kept y
             | GPtr x' => if iface then kept false x else kept false x'
             | _ => kept false x
             end /\ go r
         end) kvs
  | GRSlice iface l => (fix go l := match l with [] => True | x :: r => kept (negb iface) x /\ go r end) l
  | GPtr g' =>
      if rv then kept true g'
      else match g' with GSc _ (SStr _) | GPtr _ | GNilPtr _ | GMapStr _ => False | _ => kept false g' end
  | GNilPtr _ => rv = true
  end.
(** [SetValue] on the value itself: a time or bytes need a slot. *)
Definition root_kept (g : goval) : Prop :=
  match g with
  | GTime _ | GBytes _ => False
  | GPtr (GTime _) | GPtr (GBytes _) => False
  | GPtr (GMapStr kvs) => no_clash kvs
  | _ => kept false g
  end.

(** The extension type of an integer and the type of a time survive [SetValue] of a number. *)
Definition root_fit (s : st) (l : nat) (x : gscalar) : Prop :=
  match x with
  | SInt _ | SUint _ => c_dt (hp s l) = TInt -> c_ext (hp s l) = 0
  | SF64 _ => c_dt (hp s l) <> TDateTime
  | _ => True
  end.

(** The Go values on which the import does not panic, whether it keeps them or not. *)
Fixpoint tame (rv idx : bool) (g : goval) : Prop :=
  match g with
  | GNil | GOther | GTime _ | GBytes _ | GStrs _ => True
  | GSc _ x => in_type x
  | GMap kvs => no_clash kvs /\
      (fix go l := match l with [] => True | kv :: r => tame false false (snd kv) /\ go r end) kvs
  | GMapStr kvs => no_clash kvs
  | GMapInt kvs => no_clash kvs /\ Forall (fun kv => in_type (SInt (snd kv))) kvs
  | GList l => (fix go l := match l with [] => True | x :: r => tame false true x /\ go r end) l
  | GStruct fs => no_clash (map name_of fs) /\
      (fix go (l : list (bytes * bool * bool * goval)) := match l with
         | [] => True
         | (_, exported, iface, x) :: r =>
             (if iface then tame false false x
              else match x with
                   | GNilPtr _ => False
                   | GSc _ y | GPtr (GSc _ y) => in_type y /\ not_uint y
                   | GPtr x' => tame false false x'
                   | _ => tame false false x
                   end) /\ go r
         end) fs
  | GRMap iface kvs => no_clash kvs /\
      (fix go (l : list (bytes * goval)) := match l with
         | [] => True
         | (_, x) :: r =>
             (if iface then tame false false x
              else match x with
                   | GNilPtr _ => False
                   | GSc _ y | GPtr (GSc _ y) => in_type y
                   | GPtr x' => tame false false x'
                   | _ => tame false false x
                   end) /\ go r
         end) kvs
  | GRSlice iface l => (fix go l := match l with [] => True | x :: r => tame (negb iface) true x /\ go r end) l
  | GPtr g' =>
      if rv then tame true idx g'
      else if ptr_ignored g' then True
      else match g' with GMapStr _ => False | _ => tame false idx g' end
  | GNilPtr listed => rv = true \/ (listed = false /\ idx = false)
  end.
(** On the value itself, a pointer to a map[string]string is treated like the map. *)
Definition root_tame (g : goval) : Prop :=
  match g with
  | GPtr (GMapStr kvs) => no_clash kvs
  | _ => tame false false g
  end.

(** A key not yet in the object [l], whose keys are unescaped. *)
Definition new_key (s : st) (l : nat) (name : bytes) : Prop :=
  c_dt (hp s l) = TObject /\ (c_unesc (hp s l) = true \/ c_kvs (hp s l) = []) /\
  forall k p, In (k, p) (c_kvs (hp s l)) -> key_match E k name = false.
End Spec.
