(** Specification vocabulary for YAML documents in block style with anchors and aliases on scalars: a
    syntax tree, the lines it is written as, and the value it denotes.  Nothing here is used by
    YamlModel.v. *)
From Verif Require Import Base Values YamlSpec YamlTreeSpec.

(** A scalar is written as it is, with an anchor in front ([&a v]), or as an alias ([*a]). *)
Inductive sval := SPlain (v : bytes) | SAnchor (a v : bytes) | SAlias (a : bytes).
Definition text (x : sval) : bytes :=
  match x with
  | SPlain v => v
  | SAnchor a v => 38 :: a ++ 32 :: v
  | SAlias a => 42 :: a
  end.

(** Documents as in YamlTreeSpec.v, with these scalars. *)
Inductive rtree :=
| RS (x : sval)
| RM (d : nat) (es : rents)
| RL (d : nat) (l : ritems)
with rents :=
| RNil
| RCons (k : bytes) (t : rtree) (r : rents)
with ritems :=
| LNil
| LVal (x : sval) (r : ritems)
| LMap (k : bytes) (x : sval) (es : rents) (r : ritems).

Fixpoint rlines_e (i : nat) (es : rents) : list bytes :=
  match es with
  | RNil => []
  | RCons k t r => rlines_t i k t ++ rlines_e i r
  end
with rlines_t (i : nat) (k : bytes) (t : rtree) : list bytes :=
  match t with
  | RS x => [flat_line i (k, text x)]
  | RM d es => key_line i k :: rlines_e (i + S d) es
  | RL d l => key_line i k :: rlines_i (i + S d) l
  end
with rlines_i (i : nat) (l : ritems) : list bytes :=
  match l with
  | LNil => []
  | LVal x r => item_line i (text x) :: rlines_i i r
  | LMap k x es r => item_line i (k ++ [58; 32] ++ text x) :: rlines_e (i + 2) es ++ rlines_i i r
  end.

(** The anchors seen so far, the latest first. *)
Definition anchors := list (bytes * value).
Fixpoint anchor (A : anchors) (a : bytes) : option value :=
  match A with
  | [] => None
  | (b, w) :: r => if beq b a then Some w else anchor r a
  end.

Definition some_r (es : rents) : bool := match es with RNil => false | _ => true end.
Section Val.
Variable E : env.
(** An alias stands for the scalar at the latest anchor of this name above it; an alias without such an
    anchor is text. *)
Definition mean (A : anchors) (x : sval) : value :=
  match x with
  | SPlain v | SAnchor _ v => scalar E v
  | SAlias a => match anchor A a with Some w => w | None => VString (42 :: a) end
  end.
Definition note (A : anchors) (x : sval) : anchors :=
  match x with SAnchor a v => (a, scalar E v) :: A | _ => A end.
(** The anchors after a part of the document. *)
Fixpoint after_t (A : anchors) (t : rtree) : anchors :=
  match t with
  | RS x => note A x
  | RM _ es => after_e A es
  | RL _ l => after_i A l
  end
with after_e (A : anchors) (es : rents) : anchors :=
  match es with
  | RNil => A
  | RCons _ t r => after_e (after_t A t) r
  end
with after_i (A : anchors) (l : ritems) : anchors :=
  match l with
  | LNil => A
  | LVal x r => after_i (note A x) r
  | LMap _ x es r => after_i (after_e (note A x) es) r
  end.
Fixpoint rval_t (A : anchors) (t : rtree) : value :=
  match t with
  | RS x => mean A x
  | RM _ es => VObject (some_r es) (rval_e A es)
  | RL _ l => VArray (rval_i A l)
  end
with rval_e (A : anchors) (es : rents) : list (bytes * value) :=
  match es with
  | RNil => []
  | RCons k t r => (k, rval_t A t) :: rval_e (after_t A t) r
  end
with rval_i (A : anchors) (l : ritems) : list value :=
  match l with
  | LNil => []
  | LVal x r => mean A x :: rval_i (note A x) r
  | LMap k x es r => VObject true ((k, mean A x) :: rval_e (note A x) es) :: rval_i (after_e (note A x) es) r
  end.

(** Well-formed documents: as in YamlTreeSpec.v; names of anchors are not empty and without white space;
    and the first entry of a nested mapping is not an alias of a boolean. *)
Variable same : bytes -> bytes -> bool.
Definition name_ok (a : bytes) : Prop := a <> [] /\ ~ In 32 a /\ ~ In 10 a /\ ~ In 13 a.
Definition good_s (x : sval) : Prop :=
  match x with
  | SPlain v => plain_value v
  | SAnchor a v => name_ok a /\ plain_value v
  | SAlias a => name_ok a
  end.
Fixpoint keys_r (es : rents) : list bytes :=
  match es with RNil => [] | RCons k _ r => k :: keys_r r end.
Definition not_bool_alias (A : anchors) (es : rents) : Prop :=
  match es with
  | RCons _ (RS (SAlias a)) _ => anchor A a <> Some VTrue /\ anchor A a <> Some VFalse
  | _ => True
  end.
Fixpoint rgood_t (A : anchors) (t : rtree) : Prop :=
  match t with
  | RS x => good_s x
  | RM _ es => rgood_e A es /\ distinct same (keys_r es) /\ not_bool_alias A es
  | RL _ l => l <> LNil /\ rgood_i A l
  end
with rgood_e (A : anchors) (es : rents) : Prop :=
  match es with
  | RNil => True
  | RCons k t r => plain_key k /\ rgood_t A t /\ rgood_e (after_t A t) r
  end
with rgood_i (A : anchors) (l : ritems) : Prop :=
  match l with
  | LNil => True
  | LVal x r => good_s x /\ ~ In 58 (text x) /\ rgood_i (note A x) r
  | LMap k x es r => plain_key k /\ good_s x /\ rgood_e (note A x) es /\ distinct same (k :: keys_r es) /\
                     rgood_i (after_e (note A x) es) r
  end.
End Val.

Scheme rtree_rect2 := Induction for rtree Sort Prop
  with rents_rect2 := Induction for rents Sort Prop
  with ritems_rect2 := Induction for ritems Sort Prop.
Combined Scheme rtree_mut from rtree_rect2, rents_rect2, ritems_rect2.
