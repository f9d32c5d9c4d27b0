(** Go variables that survive the way into a value and back. *)
From Verif Require Import Base Values HeapModel GetModel ReflectModel ReflectSpec ExportModel ExportSpec.

Section Spec.
Variable E : env.
Variable ic : bool.
(** Two field names that neither the import nor the export confuses. *)
Definition apart (a b : bytes) : Prop :=
  key_match E a b = false /\ key_match E b a = false /\ hits E ic a b = false /\ hits E ic b a = false.
(** A variable of type [t] with the content [d] is the Go value [g].  Fields are exported; no field
    is unsigned, and no slice has times as elements; the conversions of the times and float32 in it
    are invertible. *)
Fixpoint holds_go (t : gtype) (g : goval) (d : slot) {struct t} : Prop :=
  match t with
  | YStr => exists b, g = GSc false (SStr b) /\ d = LStr b
  | YInt w => exists n, g = GSc false (SInt n) /\ d = LInt n /\ 0 < w <= 64 /\ - 2 ^ (w - 1) <= n < 2 ^ (w - 1)
  | YUint w => exists n, g = GSc false (SUint n) /\ d = LInt n /\ 0 < w <= 64 /\ 0 <= n < 2 ^ w /\ n < 2 ^ 63
  | YF32 => exists x, g = GSc false (SF32 x) /\ d = LF32 x /\ 0 <= x < 2 ^ 32 /\ x_f64_to_f32 E (x_f32_to_f64 E x) = x
  | YF64 => exists x, g = GSc false (SF64 x) /\ d = LF64 x
  | YBool => exists b, g = GSc false (SBool b) /\ d = LBool b
  | YTime => exists x, g = GTime x /\ d = LTime (Some x) /\ x_totime E (x_delphi E x) = x
  | YSlice et => exists l ds, (g = GRSlice false l \/ exists bs, g = GStrs bs /\ l = map (fun b => GSc false (SStr b)) bs) /\
      d = LSlice (length l) ds /\ et <> YTime /\
      (fix go (l : list goval) (ds : list slot) : Prop :=
         match l, ds with
         | [], [] => True
         | x :: l', y :: ds' => holds_go et x y /\ go l' ds'
         | _, _ => False
         end) l ds
  | YStruct fs => exists gs ds, g = GStruct gs /\ d = LStruct ds /\ ForallOrdPairs (fun a b => apart (fst (fst a)) (fst (fst b))) fs /\
      (fix go (fs : list (bytes * bool * gtype)) (gs : list (bytes * bool * bool * goval)) (ds : list slot) : Prop :=
         match fs, gs, ds with
         | [], [], [] => True
         | (name, ex, ft) :: fs', (name', ex', iface, x) :: gs', y :: ds' =>
             name' = name /\ ex = true /\ ex' = true /\ iface = false /\ (forall w, ft <> YUint w) /\
             holds_go ft x y /\ go fs' gs' ds'
         | _, _, _ => False
         end) fs gs ds
  | YSkip => False
  end.
End Spec.
