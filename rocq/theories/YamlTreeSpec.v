(** Specification vocabulary for nested YAML documents in block style: a syntax tree, the lines it is
    written as, and the value it denotes.  Nothing here is used by YamlModel.v. *)
From Verif Require Import Base Values YamlSpec.

(** What may stand behind a key: a scalar on the same line, a mapping on the lines below indented
    by [S d] more blanks, or a list on the lines below indented by [S d] more blanks. *)
Inductive ytree :=
| YS (v : bytes)
| YM (d : nat) (es : yents)
| YL (d : nat) (l : yitems)
(** The entries of a mapping. *)
with yents :=
| ENil
| ECons (k : bytes) (t : ytree) (r : yents)
(** The items of a list: scalars, and mappings whose first entry [k: v] stands behind the dash and
    whose other entries stand below it, two blanks to the right of the dash. *)
with yitems :=
| INil
| IVal (v : bytes) (r : yitems)
| IMap (k v : bytes) (es : yents) (r : yitems).

Definition key_line (i : nat) (k : bytes) : bytes := blanks i ++ k ++ [58].
Definition item_line (i : nat) (v : bytes) : bytes := blanks i ++ [45; 32] ++ v.

(** The lines, indented by [i]. *)
Fixpoint lines_e (i : nat) (es : yents) : list bytes :=
  match es with
  | ENil => []
  | ECons k t r => lines_t i k t ++ lines_e i r
  end
with lines_t (i : nat) (k : bytes) (t : ytree) : list bytes :=
  match t with
  | YS v => [flat_line i (k, v)]
  | YM d es => key_line i k :: lines_e (i + S d) es
  | YL d l => key_line i k :: lines_i (i + S d) l
  end
with lines_i (i : nat) (l : yitems) : list bytes :=
  match l with
  | INil => []
  | IVal v r => item_line i v :: lines_i i r
  | IMap k v es r => item_line i (k ++ [58; 32] ++ v) :: lines_e (i + 2) es ++ lines_i i r
  end.

(** The value, when [rd] says what a scalar reads as; an object without pairs has not had its keys looked
    up ([unescaped] is false). *)
Definition some_e (es : yents) : bool := match es with ENil => false | _ => true end.
Section Val.
Variable rd : bytes -> value.
Fixpoint val_t (t : ytree) : value :=
  match t with
  | YS v => rd v
  | YM _ es => VObject (some_e es) (val_e es)
  | YL _ l => VArray (val_i l)
  end
with val_e (es : yents) : list (bytes * value) :=
  match es with
  | ENil => []
  | ECons k t r => (k, val_t t) :: val_e r
  end
with val_i (l : yitems) : list value :=
  match l with
  | INil => []
  | IVal v r => rd v :: val_i r
  | IMap k v es r => VObject true ((k, rd v) :: val_e es) :: val_i r
  end.
End Val.

(** Plain keys, values that satisfy [pv]; scalars that are list items have no colon; lists are not empty; the
    keys of a mapping are distinct in the sense of [same]. *)
Section Good.
Variable pv : bytes -> Prop.
Variable same : bytes -> bytes -> bool.
Fixpoint keys_e (es : yents) : list bytes :=
  match es with ENil => [] | ECons k _ r => k :: keys_e r end.
Definition distinct (ks : list bytes) : Prop := ForallOrdPairs (fun a b => same a b = false) ks.
Fixpoint good_t (t : ytree) : Prop :=
  match t with
  | YS v => pv v
  | YM _ es => good_e es /\ distinct (keys_e es)
  | YL _ l => l <> INil /\ good_i l
  end
with good_e (es : yents) : Prop :=
  match es with
  | ENil => True
  | ECons k t r => plain_key k /\ good_t t /\ good_e r
  end
with good_i (l : yitems) : Prop :=
  match l with
  | INil => True
  | IVal v r => pv v /\ ~ In 58 v /\ good_i r
  | IMap k v es r => plain_key k /\ pv v /\ good_e es /\ distinct (k :: keys_e es) /\ good_i r
  end.
End Good.

Scheme ytree_rect2 := Induction for ytree Sort Prop
  with yents_rect2 := Induction for yents Sort Prop
  with yitems_rect2 := Induction for yitems Sort Prop.
Combined Scheme ytree_mut from ytree_rect2, yents_rect2, yitems_rect2.

(** Values in flow style, and all values that are no anchor or alias. *)
Definition flow (v : bytes) : bool :=
  ((hd 0 v =? 123) && (last v 0 =? 125)) || ((hd 0 v =? 91) && (last v 0 =? 93)).
Definition line_value (v : bytes) : Prop :=
  v <> [] /\ trimmed v /\ no_comment v /\ ~ In 10 v /\ hd 0 v <> 38 /\ hd 0 v <> 42 /\ hd 0 v <> 35.
(** The scalar, and the empty string for a value in flow style. *)
Definition loaded (E : env) (v : bytes) : value :=
  match scalar E v with
  | VString s => VString (if flow v then [] else s)
  | w => w
  end.

(** [decorated a b]: the lines [b] are the lines [a] with blanks, carriage returns and comments added
    behind lines, comment lines put in, and carriage returns in empty lines. *)
Definition pad (b : bytes) : Prop := Forall (fun c => c = 32 \/ c = 13) b.
Inductive decorated : list bytes -> list bytes -> Prop :=
| dc_nil : decorated [] []
| dc_same l a b : decorated a b -> decorated (l :: a) (l :: b)
| dc_comment n t a b : decorated a b -> decorated a ((blanks n ++ 35 :: t) :: b)
| dc_empty a b : decorated a b -> decorated ([] :: a) ([13] :: b)
| dc_pad n body ws tl a b : (2 <= length body)%nat -> hd 0 body <> 32 -> hd 0 body <> 35 -> no_comment body -> pad ws ->
    (tl = [] \/ exists t, tl = 32 :: 35 :: t) -> decorated a b ->
    decorated ((blanks n ++ body) :: a) ((blanks n ++ body ++ ws ++ tl) :: b).

(** The last item of the list is written on one line. *)
Fixpoint ends_flat (l : yitems) : bool :=
  match l with
  | INil => true
  | IVal _ r => ends_flat r
  | IMap _ _ es INil => negb (some_e es)
  | IMap _ _ _ r => ends_flat r
  end.
(** A line of text: no key, no list item, no comment. *)
Definition text_line (t : bytes) : Prop :=
  (2 <= length t)%nat /\ trimmed t /\ no_comment t /\ ~ In 10 t /\ ~ In 58 t /\ hd 0 t <> 35 /\ hd 0 t <> 45 /\ t <> [60; 60].
