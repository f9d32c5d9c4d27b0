(** Binary values with their backing arrays: Go slices, [append], and the functions of bin_value.go.
    Only the fields [DataType], [ExtType] and [fbinary] of a [DxValue] are modelled here; the shared
    constants are never binaries and are left out. *)
From Coq Require Import String.
From Verif Require Import Base HeapModel.

(** A Go slice of bytes: backing array, offset, length, capacity.  [nil] has capacity 0. *)
Record slice := mkSl { s_arr : nat; s_off : nat; s_len : nat; s_cap : nat }.
Definition nil_slice : slice := mkSl 0 0 0 0.
(** Backing arrays; [m_next] is the next unused name. *)
Record mem := mkMem { m_arr : nat -> bytes; m_next : nat }.

(** The bytes of a slice. *)
Definition read (m : mem) (s : slice) : bytes := firstn (s_len s) (skipn (s_off s) (m_arr m (s_arr s))).

(** [s[i:j]]: panics unless [i <= j <= cap(s)]. *)
Definition reslice (s : slice) (i j : nat) : res slice :=
  if (i <=? j)%nat && (j <=? s_cap s)%nat then Ok (mkSl (s_arr s) (s_off s + i) (j - i) (s_cap s - i)) else Panic.

Definition overwrite (a : bytes) (off : nat) (b : bytes) : bytes := firstn off a ++ b ++ skipn (off + length b) a.
(** [s[i] = x] for [i < len(s)]. *)
Definition poke (m : mem) (s : slice) (i : nat) (x : Z) : mem :=
  mkMem (upd (m_arr m) (s_arr s) (overwrite (m_arr m (s_arr s)) (s_off s + i) [x])) (m_next m).

(** A new array holding [b], with [extra] zero bytes of spare capacity. *)
Definition alloc (m : mem) (b : bytes) (extra : nat) : slice * mem :=
  (mkSl (m_next m) 0 (length b) (length b + extra),
   mkMem (upd (m_arr m) (m_next m) (b ++ repeat 0 extra)) (S (m_next m))).

(** [append(s, b...)]: in place when the capacity suffices, otherwise in a new array, whose spare
    capacity is chosen by the runtime ([G old_capacity new_length]). *)
Definition append (G : nat -> nat -> nat) (m : mem) (s : slice) (b : bytes) : slice * mem :=
  if (s_len s + length b <=? s_cap s)%nat
  then (mkSl (s_arr s) (s_off s) (s_len s + length b) (s_cap s),
        mkMem (upd (m_arr m) (s_arr s) (overwrite (m_arr m (s_arr s)) (s_off s + s_len s) b)) (m_next m))
  else alloc m (read m s ++ b) (G (s_cap s) (s_len s + length b)%nat).
(** [s[:0]] never panics. *)
Definition empty_of (s : slice) : slice := mkSl (s_arr s) (s_off s) 0 (s_cap s).

(** The fields of a value this file is about. *)
Record bval := mkB { b_dt : vtype; b_ext : Z; b_bin : slice }.
Record world := mkW { w_mem : mem; w_val : nat -> bval }.
Definition set_bin (w : world) (v : nat) (p : slice * mem) : world :=
  mkW (snd p) (upd (w_val w) v (mkB (b_dt (w_val w v)) (b_ext (w_val w v)) (fst p))).

(** [Reset] (dxvalue.go:318-352), the three fields. *)
Definition ResetB (w : world) (v : nat) (t : vtype) : world := mkW (w_mem w) (upd (w_val w) v (mkB t 0 nil_slice)).

(** bin_value.go:9-14 *)
Definition BinExtType (w : world) (v : nat) : Z :=
  let c := w_val w v in
  match b_dt c with
  | TExBinary => if (0 <? s_len (b_bin c))%nat then nth 0 (read (w_mem w) (b_bin c)) 0 else 0
  | _ => 0
  end.
(** bin_value.go:16-28 *)
Definition BinLen (w : world) (v : nat) : nat :=
  let c := w_val w v in
  match b_dt c with
  | TExBinary => if (0 <? s_len (b_bin c))%nat then (s_len (b_bin c) - 1)%nat else O
  | TBinary => s_len (b_bin c)
  | _ => O
  end.
(** bin_value.go:40-52; [s[1:]] of a non-empty slice does not panic. *)
Definition Binary (w : world) (v : nat) : slice :=
  let c := w_val w v in
  match b_dt c with
  | TBinary => b_bin c
  | TExBinary => if (0 <? s_len (b_bin c))%nat
                 then mkSl (s_arr (b_bin c)) (s_off (b_bin c) + 1) (s_len (b_bin c) - 1) (s_cap (b_bin c) - 1)
                 else nil_slice
  | _ => nil_slice
  end.

Section Growth.
Variable G : nat -> nat -> nat.

(** bin_value.go:30-38 *)
Definition SetExtType (w : world) (v : nat) (t : Z) : world :=
  let c := w_val w v in
  match b_dt c with
  | TExBinary =>
      if (0 <? s_len (b_bin c))%nat then mkW (poke (w_mem w) (b_bin c) 0 t) (w_val w)
      else set_bin w v (append G (w_mem w) (b_bin c) [t])
  | _ => w
  end.

(** [v.fbinary = append(v.fbinary[:0], b...)], the bytes of [b] being read before they are moved
    ([copy] handles overlap). *)
Definition refill (w : world) (v : nat) (b : slice) : world :=
  set_bin w v (append G (w_mem w) (empty_of (b_bin (w_val w v))) (read (w_mem w) b)).
(** bin_value.go:54-75 *)
Definition SetBinary (w : world) (v : nat) (b : slice) (valueClone : bool) : world :=
  let c := w_val w v in
  match b_dt c with
  | TBinary => if valueClone then refill w v b else set_bin w v (b, w_mem w)
  | TExBinary =>
      if (0 <? s_len (b_bin c))%nat then
        let w1 := set_bin w v (append G (w_mem w) (empty_of (b_bin c)) [nth 0 (read (w_mem w) (b_bin c)) 0]) in
        set_bin w1 v (append G (w_mem w1) (b_bin (w_val w1 v)) (read (w_mem w1) b))
      else
        let w1 := ResetB w v TBinary in
        if valueClone then refill w1 v b else set_bin w1 v (b, w_mem w1)
  | _ => w
  end.
End Growth.

(** bin_value.go:96-105: [content] is what [ReadFile] returned, [extra] its spare capacity. *)
Definition SetBinaryFromFile (G : nat -> nat -> nat) (w : world) (v : nat) (content : bytes) (extra : nat) : world :=
  match b_dt (w_val w v) with
  | TBinary | TExBinary =>
      let (b, m) := alloc (w_mem w) content extra in SetBinary G (mkW m (w_val w)) v b false
  | _ => w
  end.

(** [v.fbinary[:n]] as [String] (dxvalue.go:728-748) and [formatValue] (jsonparse.go:772-786) use it. *)
Definition prefix (w : world) (v n : nat) : res bytes :=
  do s <- reslice (b_bin (w_val w v)) 0 n; Ok (read (w_mem w) s).
(** [String] on a [VT_Binary] value (dxvalue.go:728-748). *)
Definition StringB (E : env) (w : world) (v : nat) : res bytes :=
  if b_ext (w_val w v) =? 7 then do x <- prefix w v 12; Ok (bs "{""$oid"":""" ++ x_bin2hex E x ++ bs """}")
  else if b_ext (w_val w v) =? 19 then do x <- prefix w v 16; Ok (bs "{""Decimal128"":""" ++ x_bin2hex E x ++ bs """}")
  else do x <- prefix w v 12; Ok (bs "Bin(" ++ x_bin2hex E x ++ bs ")").

(** How a decoder stores the [n] bytes of a binary found at [b] in a fresh value
    (msgpackparse.go:277-283, 319-325; bson_parse.go:200-213, 249): shared with the message or copied. *)
Definition decode_bin (G : nat -> nat -> nat) (w : world) (v : nat) (b : slice) (n : nat) (share : bool) : res world :=
  do s <- reslice b 0 n;
  Ok (if share then set_bin w v (s, w_mem w)
      else set_bin w v (append G (w_mem w) (empty_of (b_bin (w_val w v))) (read (w_mem w) s))).

(** What a program does with binaries: make buffers of its own, write to them, and call the API.
    An argument is a part of a buffer of the program or of what [Binary()] returns now. *)
Inductive src := SBuf (k i j : nat) | SVal (u i j : nat).
Inductive bop :=
| BNew (b : bytes) (extra : nat)          (* buf := make([]byte, n, cap) filled with b *)
| BWrite (k i : nat) (x : Z)              (* buf[i] = x *)
| BReset (v : nat) (t : vtype)
| BExt (v : nat) (t : Z)
| BSet (v : nat) (a : src) (clone : bool)
| BFile (v : nat) (content : bytes) (extra : nat).
(** The program's buffers, oldest first. *)
Record prog := mkP { p_w : world; p_bufs : list slice }.
Definition src_slice (p : prog) (a : src) : res slice :=
  match a with
  | SBuf k i j => reslice (nth k (p_bufs p) nil_slice) i j
  | SVal u i j => reslice (Binary (p_w p) u) i j
  end.
Definition bstep (G : nat -> nat -> nat) (p : prog) (o : bop) : res prog :=
  match o with
  | BNew b extra => let (s, m) := alloc (w_mem (p_w p)) b extra in Ok (mkP (mkW m (w_val (p_w p))) (p_bufs p ++ [s]))
  | BWrite k i x =>
      let s := nth k (p_bufs p) nil_slice in
      if (i <? s_len s)%nat then Ok (mkP (mkW (poke (w_mem (p_w p)) s i x) (w_val (p_w p))) (p_bufs p)) else Panic
  | BReset v t => Ok (mkP (ResetB (p_w p) v t) (p_bufs p))
  | BExt v t => Ok (mkP (SetExtType G (p_w p) v t) (p_bufs p))
  | BSet v a clone => do s <- src_slice p a; Ok (mkP (SetBinary G (p_w p) v s clone) (p_bufs p))
  | BFile v content extra => Ok (mkP (SetBinaryFromFile G (p_w p) v content extra) (p_bufs p))
  end.
Fixpoint brun (G : nat -> nat -> nat) (p : prog) (os : list bop) : res prog :=
  match os with [] => Ok p | o :: r => do q <- bstep G p o; brun G q r end.
(** Before any call: no arrays, all values plain. *)
Definition prog0 : prog := mkP (mkW (mkMem (fun _ => []) 0) (fun _ => mkB TNull 0 nil_slice)) [].
