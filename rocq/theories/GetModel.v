(** Model of the getters that need further library functions. *)
From Verif Require Import Base Values HeapModel.

(** float32(int64) (bit pattern); [time.ParseInLocation] with the layouts
    "2006-01-02T15:04:05Z", "2006-01-02 15:04:05", "2006/01/02 15:04:05" (numbered 0, 1, 2) in the
    local zone, as (seconds, nanoseconds); [time.ParseDuration] in nanoseconds. *)
Record tenv := {
  t_i64_to_f32 : Z -> Z;
  t_parse_time : nat -> bytes -> option (Z * Z);
  t_duration : bytes -> option Z }.

Section Get.
Variable E : env.
Variable T : tenv.

(** [Float] (dxvalue.go:924-940); 1065353216 are the bits of 1. *)
Definition Float (c : cell) : Z :=
  match c_dt c with
  | TTrue => 1065353216
  | TInt => t_i64_to_f32 T (to_i64 (c_sv c))
  | TDouble | TDateTime => x_f64_to_f32 E (c_sv c)
  | TFloat => c_sv c mod 2^32
  | TString | TRaw => x_f64_to_f32 E (x_str2f64 E (c_str c) 0)
  | _ => 0
  end.
(** [Duration] (dxvalue.go:942-953): the value, and the cell afterwards (a raw string is unescaped). *)
Definition Duration (c : cell) (def : Z) : Z * cell :=
  match c_dt c with
  | TString | TRaw =>
      let (b, c') := StringOf E c in
      (match t_duration T b with Some d => d | None => def end, c')
  | TInt => (Int E c, c)
  | _ => (def, c)
  end.
(** The three attempts of [DateTime] and [GoTime]. *)
Definition parse_time (b : bytes) : option (Z * Z) :=
  match t_parse_time T 0 b with
  | Some t => Some t
  | None => match t_parse_time T 1 b with
            | Some t => Some t
            | None => t_parse_time T 2 b
            end
  end.
(** [DateTime] (dxvalue.go:955-969); 0xbff0000000000000 are the bits of -1. *)
Definition DateTime (c : cell) : Z :=
  match c_dt c with
  | TInt | TDouble | TFloat | TDateTime => Double E c
  | TString | TRaw => match parse_time (c_str c) with
                      | Some t => x_delphi E t
                      | None => 13830554455654793216
                      end
  | _ => 13830554455654793216
  end.
(** [GoTime] (dxvalue.go:971-985); [None] is the zero time. *)
Definition GoTime (c : cell) : option (Z * Z) :=
  match c_dt c with
  | TInt | TFloat | TDouble | TDateTime => Some (x_totime E (Double E c))
  | TString | TRaw => parse_time (c_str c)
  | _ => None
  end.

(** [FloatByPath], [DateTimeByPath], [GoTimeByPath] (dxvalue.go:1093-1124), [DurationByPath] (1062-1068). *)
Definition FloatByPath (s : st) (p : ptr) (def : Z) (paths : list bytes) : Z * st :=
  let (r, s1) := ValueByPath E s p paths in
  (match r with None => def | Some l => Float (hp s1 l) end, s1).
Definition DateTimeByPath (s : st) (p : ptr) (def : Z) (paths : list bytes) : Z * st :=
  let (r, s1) := ValueByPath E s p paths in
  (match r with None => def | Some l => DateTime (hp s1 l) end, s1).
Definition GoTimeByPath (s : st) (p : ptr) (def : option (Z * Z)) (paths : list bytes) : option (Z * Z) * st :=
  let (r, s1) := ValueByPath E s p paths in
  (match r with None => def | Some l => GoTime (hp s1 l) end, s1).
Definition DurationByPath (s : st) (p : ptr) (def : Z) (paths : list bytes) : Z * st :=
  let (r, s1) := ValueByPath E s p paths in
  match r with
  | None => (def, s1)
  | Some l => let (d, c) := Duration (hp s1 l) def in (d, set_cell s1 l c)
  end.
(** [FloatByIndex], [StringByIndex] (dxvalue.go:1271-1293). *)
Definition FloatByIndex (s : st) (l : nat) (idx : Z) (def : Z) : Z :=
  match ValueByIndex s l idx with None => def | Some x => Float (hp s x) end.
Definition StringByIndex (s : st) (l : nat) (idx : Z) (def : bytes) : bytes * st :=
  match ValueByIndex s l idx with
  | None => (def, s)
  | Some x => let (b, c) := StringOf E (hp s x) in (b, set_cell s x c)
  end.
End Get.
