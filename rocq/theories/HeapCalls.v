(** Specification vocabulary: sequences of API calls seen from one object or one array. *)
From Verif Require Import Base Values HeapModel HeapSpec ApiSpec.

Section Calls.
Variable E : env.
Variable G : nat -> nat.

(** The pairs of an object as [Items] shows them. *)
Definition pairs (s : st) (l : nat) : list (bytes * ptr) :=
  unescape_keys E (c_unesc (hp s l)) (c_kvs (hp s l)).

(** An object in normal use: a live cell of type object that is not an entry of itself. *)
Definition good_obj (s : st) (l : nat) : Prop :=
  wf s /\ live s l /\ c_dt (hp s l) = TObject /\ ~ In (Some l) (map snd (c_kvs (hp s l))).
Definition good_arr (s : st) (l : nat) : Prop :=
  wf s /\ live s l /\ c_dt (hp s l) = TArray /\ ~ In (Some l) (c_arr (hp s l)).

Definition stored (s : st) (p : ptr) : Prop := forall x, p = Some x -> (x < nx s)%nat.

(** A call on the object at [l] with the map events it stands for, or anything that leaves the
    object alone. *)
Inductive obj_step (l : nat) : st -> list (event ptr) -> st -> Prop :=
| os_set s name t r s' : SetKey E G s l name t = Ok (r, s') -> obj_step l s [ESet name (Some r)] s'
| os_set_cached s name t d r s' : (d < nx s)%nat ->
    SetKeyCached E G s l name t (c_own (hp s d)) = Ok (r, s') -> obj_step l s [ESet name (Some r)] s'
| os_value s name p : p <> Some l -> stored s p -> obj_step l s [ESet name p] (SetKeyValue E G s l name p)
| os_bool s name b : obj_step l s [ESet name (Some (if b : bool then loc_true else loc_false))] (SetKeyBool E G s l name b)
| os_remove s name : obj_step l s [EDel name] (RemoveKey E s l name)
| os_extract s name : obj_step l s [EDel name] (snd (ExtractValue E s l name))
| os_lookup s name : obj_step l s [] (snd (ValueByName E s l name))
| os_items s i : obj_step l s [] (snd (Items E s l i))
| os_other s s' : wf s' -> live s' l -> hp s' l = hp s l -> obj_step l s [] s'.
(** Newest event first. *)
Inductive obj_steps (l : nat) : st -> list (event ptr) -> st -> Prop :=
| oss_nil s : obj_steps l s [] s
| oss_cons s h1 s1 h2 s2 : obj_steps l s h1 s1 -> obj_step l s1 h2 s2 -> obj_steps l s (h2 ++ h1) s2.

(** Calls that only read the object at [l]. *)
Inductive read_step (l : nat) : st -> st -> Prop :=
| rs_lookup s name : read_step l s (snd (ValueByName E s l name))
| rs_path s paths : read_step l s (snd (ValueByPath E s (Some l) paths))
| rs_items s i : read_step l s (snd (Items E s l i))
| rs_other s s' : wf s' -> live s' l -> hp s' l = hp s l -> read_step l s s'.
Inductive reads (l : nat) : st -> st -> Prop :=
| rd_nil s : reads l s s
| rd_cons s s1 s2 : reads l s s1 -> read_step l s1 s2 -> reads l s s2.

(** A call on the array at [l] and the list edit it stands for. *)
Definition set_or_append (i : Z) (x : ptr) (a b : list ptr) : Prop :=
  (0 <= i < zlen a /\ replaced i x a b) \/ (~ 0 <= i < zlen a /\ b = a ++ [x]).
Definition insert_clamped (i : Z) (x : ptr) (a b : list ptr) : Prop :=
  inserted (Z.max 0 (Z.min i (zlen a))) x a b.
Definition remove_or_skip (i : Z) (a b : list ptr) : Prop :=
  (0 <= i < zlen a /\ removed i a b) \/ (~ 0 <= i < zlen a /\ b = a).

Inductive arr_step (l : nat) : st -> (list ptr -> list ptr -> Prop) -> st -> Prop :=
| as_set s i t r s' : SetIndex G s l i t = (r, s') -> arr_step l s (set_or_append i (Some r)) s'
| as_set_cached s i t d r s' : (d < nx s)%nat ->
    SetIndexCached G s l i t (c_own (hp s d)) = (r, s') -> arr_step l s (set_or_append i (Some r)) s'
| as_value s i p : p <> Some l -> stored s p -> arr_step l s (set_or_append i p) (SetIndexValue s l i p)
| as_insert s i t r s' : InsertValue s l i t = (r, s') -> arr_step l s (insert_clamped i (Some r)) s'
| as_append s t r s' : zlen (c_arr (hp s l)) <= 2147483647 -> Append s l t = (r, s') ->
    arr_step l s (fun a b => b = a ++ [Some r]) s'
| as_remove s i : arr_step l s (remove_or_skip i) (RemoveIndex s l i)
| as_lookup s name : arr_step l s eq (snd (ValueByName E s l name))
| as_items s i : arr_step l s eq (snd (Items E s l i))
| as_other s s' : wf s' -> live s' l -> hp s' l = hp s l -> arr_step l s eq s'.
(** Composition of the edits. *)
Inductive arr_steps (l : nat) : st -> (list ptr -> list ptr -> Prop) -> st -> Prop :=
| ass_nil s : arr_steps l s eq s
| ass_cons s R1 s1 R2 s2 : arr_steps l s R1 s1 -> arr_step l s1 R2 s2 ->
    arr_steps l s (fun a c => exists b, R1 a b /\ R2 b c) s2.

(** ** Walking down a path, in one fixed state *)
Inductive walk (s : st) : nat -> list bytes -> ptr -> Prop :=
| walk_end l : walk s l [] (Some l)
| walk_key l key k x rest r : c_dt (hp s l) = TObject ->
    In (k, Some x) (pairs s l) -> key_match E k key = true -> walk s x rest r ->
    walk s l (key :: rest) r
| walk_nil_entry l key k rest : c_dt (hp s l) = TObject ->
    In (k, None) (pairs s l) -> key_match E k key = true -> walk s l (key :: rest) None
| walk_no_key l key rest : c_dt (hp s l) = TObject ->
    (forall k p, In (k, p) (pairs s l) -> key_match E k key = false) -> walk s l (key :: rest) None
| walk_elem l key i a b x rest r : c_dt (hp s l) = TArray -> x_str2int E key (-1) = i ->
    c_arr (hp s l) = a ++ Some x :: b -> zlen a = i -> walk s x rest r ->
    walk s l (key :: rest) r
| walk_nil_elem l key i a b rest : c_dt (hp s l) = TArray -> x_str2int E key (-1) = i ->
    c_arr (hp s l) = a ++ None :: b -> zlen a = i -> walk s l (key :: rest) None
| walk_no_elem l key rest : c_dt (hp s l) = TArray ->
    ~ 0 <= x_str2int E key (-1) < zlen (c_arr (hp s l)) -> walk s l (key :: rest) None
| walk_scalar l key rest : c_dt (hp s l) <> TObject -> c_dt (hp s l) <> TArray ->
    walk s l (key :: rest) None.

(** Every object of the state has distinct keys. *)
Definition all_distinct (s : st) : Prop :=
  forall l, c_dt (hp s l) = TObject -> distinct_keys (key_match E) (pairs s l).

End Calls.
