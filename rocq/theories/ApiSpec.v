(** Specification vocabulary for the object and array API, independent of the model functions:
    histories of an ordered map and list editing. *)
From Verif Require Import Base Values.

(** ** What the external functions are assumed to do (hypotheses of theorems, not axioms) *)
Record env_ok (E : env) : Prop := {
  fold_refl : forall a, x_fold E a a = true;
  fold_sym : forall a b, x_fold E a b = true -> x_fold E b a = true;
  fold_trans : forall a b c, x_fold E a b = true -> x_fold E b c = true -> x_fold E a c = true;
  (** case folding neither adds nor removes a backslash *)
  fold_plain : forall a b, x_fold E a b = true -> no_backslash b = true -> no_backslash a = true;
  (** a text without backslash has no escape sequence *)
  unesc_plain : forall a, no_backslash a = true -> x_unescape E a = a }.

(** ** Histories of an insertion-ordered map, newest event first *)
Inductive event (A : Type) :=
| ESet (k : bytes) (x : A)
| EDel (k : bytes).
Arguments ESet {A}. Arguments EDel {A}.

Section Hist.
Context {A : Type}.
Variable same : bytes -> bytes -> bool.

(** The value last set for [k], unless deleted since. *)
Fixpoint last_set (h : list (event A)) (k : bytes) : option A :=
  match h with
  | [] => None
  | ESet k' x :: r => if same k' k then Some x else last_set r k
  | EDel k' :: r => if same k' k then None else last_set r k
  end.

(** The keys present, in order of insertion. *)
Fixpoint key_order (h : list (event A)) : list bytes :=
  match h with
  | [] => []
  | ESet k _ :: r =>
      let o := key_order r in if existsb (fun k' => same k' k) o then o else o ++ [k]
  | EDel k :: r => filter (fun k' => negb (same k' k)) (key_order r)
  end.

Definition content (h : list (event A)) : list (bytes * option A) :=
  map (fun k => (k, last_set h k)) (key_order h).

(** No two entries with the same key. *)
Definition distinct_keys (m : list (bytes * A)) : Prop :=
  ForallOrdPairs (fun a b => same (fst a) (fst b) = false) m.
End Hist.

(** The pairs as an insertion history (newest first). *)
Definition as_history {A} (m : list (bytes * A)) : list (event A) :=
  rev (map (fun kv => ESet (fst kv) (snd kv)) m).

(** ** List editing *)
Section Edit.
Context {A : Type}.
(** [b] is [a] with the element at [i] replaced by [x]. *)
Definition replaced (i : Z) (x : A) (a b : list A) : Prop :=
  exists p y q, a = p ++ y :: q /\ zlen p = i /\ b = p ++ x :: q.
(** [b] is [a] with [x] inserted before position [i]. *)
Definition inserted (i : Z) (x : A) (a b : list A) : Prop :=
  exists p q, a = p ++ q /\ zlen p = i /\ b = p ++ x :: q.
(** [b] is [a] without the element at [i]. *)
Definition removed (i : Z) (a b : list A) : Prop :=
  exists p y q, a = p ++ y :: q /\ zlen p = i /\ b = p ++ q.
End Edit.
