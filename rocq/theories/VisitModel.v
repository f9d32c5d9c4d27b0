(** Model of [Visit] with an arbitrary callback. *)
From Verif Require Import Base Values HeapModel.

Section Visit.
(** What the callback keeps between its calls (the variables of the closure). *)
Context {A : Type}.
(** The callback may change values, the visited container included; its answer is whether to go on. *)
Definition visitor := A -> st -> bytes -> ptr -> res (bool * A * st).

(** The first loop of [Visit] (dxvalue.go:1329-1333), from pair [i]: the length and the pair are read
    again in every round. *)
Fixpoint visit_obj (f : visitor) (fuel : nat) (a : A) (s : st) (l i : nat) {struct fuel} : res (A * st) :=
  match fuel with
  | O => OutOfFuel
  | S n =>
      match nth_error (c_kvs (hp s l)) i with
      | None => Ok (a, s)
      | Some (k, p) =>
          do (x, s1) <- f a s k p;
          let (go, a1) := x : bool * A in
          if go then visit_obj f n a1 s1 l (S i) else Ok (a1, s1)
      end
  end.
(** The second loop (1335-1339). *)
Fixpoint visit_arr (f : visitor) (fuel : nat) (a : A) (s : st) (l i : nat) {struct fuel} : res (A * st) :=
  match fuel with
  | O => OutOfFuel
  | S n =>
      match nth_error (c_arr (hp s l)) i with
      | None => Ok (a, s)
      | Some p =>
          do (x, s1) <- f a s [] p;
          let (go, a1) := x : bool * A in
          if go then visit_arr f n a1 s1 l (S i) else Ok (a1, s1)
      end
  end.
(** [Visit] (dxvalue.go:1326-1341). *)
Definition Visit (f : visitor) (fuel : nat) (a : A) (s : st) (l : nat) : res (A * st) :=
  match c_dt (hp s l) with
  | TObject => visit_obj f fuel a s l O
  | TArray => visit_arr f fuel a s l O
  | _ => Ok (a, s)
  end.
End Visit.
Arguments visitor : clear implicits.
