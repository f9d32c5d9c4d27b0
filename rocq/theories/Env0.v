(** A concrete instance of the external functions, used only in [Example]s: it shows
    that the hypotheses made about them in the theorems can be met.  Escaping is the
    identity except that a backslash is doubled and a quote is prefixed by one; times
    are packed as seconds * 2^30 + nanoseconds; floats are integers. *)
From Verif Require Import Base.

Fixpoint esc0 (s : bytes) : bytes :=
  match s with
  | [] => []
  | c :: r => if (c =? 34) || (c =? 92) then 92 :: c :: esc0 r else c :: esc0 r
  end.
Fixpoint unesc0 (s : bytes) : bytes :=
  match s with
  | 92 :: c :: r => c :: unesc0 r
  | c :: r => c :: unesc0 r
  | [] => []
  end.
(** Decimal digits, optional minus sign; [d] when malformed. *)
Fixpoint digits0 (s : bytes) (acc : Z) : option Z :=
  match s with
  | [] => Some acc
  | c :: r => if (48 <=? c) && (c <=? 57) then digits0 r (acc * 10 + (c - 48)) else None
  end.
Definition str2int0 (s : bytes) (d : Z) : Z :=
  match s with
  | [] => d
  | 45 :: ((_ :: _) as r) => match digits0 r 0 with Some n => - n | None => d end
  | _ => match digits0 s 0 with Some n => n | None => d end
  end.
Definition lower0 (c : Z) : Z := if (65 <=? c) && (c <=? 90) then c + 32 else c.

Definition env0 (ic : bool) : env := {|
  ignore_case := ic;
  x_fold := fun a b => beq (map lower0 a) (map lower0 b);
  x_unescape := unesc0;
  x_escape := fun _ s => esc0 s;
  x_str2int := str2int0;
  x_str2f64 := fun s d => str2int0 s d;
  x_parsefloat := fun s => match digits0 s 0 with Some n => Some n | None => None end;
  x_jsontime := fun _ => None;
  x_f64_to_f32 := fun x => x mod 2 ^ 32;
  x_f32_to_f64 := fun x => x;
  x_i64_to_f64 := fun x => x mod 2 ^ 64;
  x_f64_to_i64 := fun x => x;
  x_f64_eq := Z.eqb;
  x_fmt_f64 := fmt_int;
  x_delphi := fun t => (fst t * 2 ^ 30 + snd t) mod 2 ^ 64;
  x_totime := fun b => (b / 2 ^ 30, b mod 2 ^ 30);
  x_fmt_time := fun b => fmt_int b;
  x_bin2hex := fun b => b
|}.
