(** Induction over Go values through their lists. *)
From Verif Require Import Base Values HeapModel ReflectModel.

Section Ind.
Variable P : goval -> Prop.
Hypothesis Hnil : P GNil.
Hypothesis Hsc : forall n x, P (GSc n x).
Hypothesis Htime : forall t, P (GTime t).
Hypothesis Hbytes : forall b, P (GBytes b).
Hypothesis Hmap : forall kvs, Forall (fun kv => P (snd kv)) kvs -> P (GMap kvs).
Hypothesis Hmapstr : forall kvs, P (GMapStr kvs).
Hypothesis Hmapint : forall kvs, P (GMapInt kvs).
Hypothesis Hlist : forall l, Forall P l -> P (GList l).
Hypothesis Hstrs : forall l, P (GStrs l).
Hypothesis Hstruct : forall fs, Forall (fun f => P (snd f)) fs -> P (GStruct fs).
Hypothesis Hrmap : forall i kvs, Forall (fun kv => P (snd kv)) kvs -> P (GRMap i kvs).
Hypothesis Hrslice : forall i l, Forall P l -> P (GRSlice i l).
Hypothesis Hptr : forall g, P g -> P (GPtr g).
Hypothesis Hnilptr : forall b, P (GNilPtr b).
Hypothesis Hother : P GOther.
Fixpoint goval_ind' (g : goval) : P g :=
  let prs := fix go (l : list (bytes * goval)) : Forall (fun kv => P (snd kv)) l :=
    match l with [] => Forall_nil _ | kv :: r => Forall_cons kv (goval_ind' (snd kv)) (go r) end in
  let els := fix go (l : list goval) : Forall P l :=
    match l with [] => Forall_nil _ | x :: r => Forall_cons x (goval_ind' x) (go r) end in
  let fls := fix go (l : list (bytes * bool * bool * goval)) : Forall (fun f => P (snd f)) l :=
    match l with [] => Forall_nil _ | x :: r => Forall_cons x (goval_ind' (snd x)) (go r) end in
  match g with
  | GNil => Hnil | GSc n x => Hsc n x | GTime t => Htime t | GBytes b => Hbytes b
  | GMap kvs => Hmap kvs (prs kvs) | GMapStr kvs => Hmapstr kvs | GMapInt kvs => Hmapint kvs
  | GList l => Hlist l (els l) | GStrs l => Hstrs l
  | GStruct fs => Hstruct fs (fls fs) | GRMap i kvs => Hrmap i kvs (prs kvs)
  | GRSlice i l => Hrslice i l (els l)
  | GPtr g => Hptr g (goval_ind' g) | GNilPtr b => Hnilptr b | GOther => Hother
  end.
End Ind.

(** The same, with the statement also known below one pointer. *)
Definition and_below (P : goval -> Prop) (g : goval) : Prop := P g /\ forall g', g = GPtr g' -> P g'.
