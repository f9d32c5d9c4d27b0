(** Goroutines that look up names in one shared object without locking: [VObject.ValueByName]
    (dxvalue.go:117-133) and [UnEscapestrs] (dxvalue.go:135-144), one memory access per step.
    Simplified: reading or writing a string field is one step (Go strings are two words), and steps are
    sequentially consistent. *)
From Verif Require Import Base Values HeapModel.
Local Open Scope nat_scope.

(** The fields [keysUnescaped] and [strkvs] of [VObject] (dxvalue.go:42-46). *)
Record shared := mkShared { q_unesc : bool; q_kvs : list (bytes * ptr) }.

(** Where a goroutine is inside [ValueByName]. *)
Inductive rpc :=
| REnter                                (* before reading keysUnescaped, dxvalue.go:118 *)
| RFold (second : bool) (i : nat)       (* before strings.EqualFold(strkvs[i].K, name), 120 and 128 *)
| REq (second : bool) (i : nat)         (* before strkvs[i].K == name, 120 and 128 *)
| RGot (i : nat)                        (* before reading strkvs[i].V, 121 and 129 *)
| RCheck                                (* before reading keysUnescaped, 136 *)
| RRead (i : nat)                       (* before reading kv.K, 141 *)
| RWrite (i : nat) (k : bytes)          (* before writing kv.K, 141 *)
| RFlag.                                (* before writing keysUnescaped, 143 *)
(** [g_todo]: the names to look up, the current one first; [g_out]: the results so far. *)
Record reader := mkReader { g_todo : list bytes; g_pc : rpc; g_out : list ptr }.
Definition sys : Type := shared * list reader.

Section ENV.
Variable E : env.

Fixpoint set_key (i : nat) (k : bytes) (l : list (bytes * ptr)) : list (bytes * ptr) :=
  match l, i with
  | [], _ => []
  | (_, v) :: r, O => (k, v) :: r
  | x :: r, S i' => x :: set_key i' k r
  end.
(** The call returns [p]; the next one starts. *)
Definition finish (g : reader) (p : ptr) : reader := mkReader (tl (g_todo g)) REnter (g_out g ++ [p]).
Definition at_pc (g : reader) (p : rpc) : reader := mkReader (g_todo g) p (g_out g).
(** One step of a goroutine. *)
Definition rstep (o : shared) (g : reader) : shared * reader :=
  match g_todo g with
  | [] => (o, g)
  | name :: _ =>
      match g_pc g with
      | REnter =>
          if negb (q_unesc o) && no_backslash name then (o, at_pc g (RFold false 0)) else (o, at_pc g RCheck)
      | RFold second i =>
          match nth_error (q_kvs o) i with
          | Some (k, _) => (o, at_pc g (if ignore_case E && x_fold E k name then RGot i else REq second i))
          | None => if second then (o, finish g None) else (o, at_pc g RCheck)
          end
      | REq second i =>
          match nth_error (q_kvs o) i with
          | Some (k, _) => (o, at_pc g (if beq k name then RGot i else RFold second (S i)))
          | None => (o, g)
          end
      | RGot i => match nth_error (q_kvs o) i with Some (_, p) => (o, finish g p) | None => (o, g) end
      | RCheck => if q_unesc o then (o, at_pc g (RFold true 0)) else (o, at_pc g (RRead 0))
      | RRead i =>
          match nth_error (q_kvs o) i with
          | Some (k, _) => (o, at_pc g (RWrite i (x_unescape E k)))
          | None => (o, at_pc g RFlag)
          end
      | RWrite i k => (mkShared (q_unesc o) (set_key i k (q_kvs o)), at_pc g (RRead (S i)))
      | RFlag => (mkShared true (q_kvs o), at_pc g (RFold true 0))
      end
  end.
(** Goroutine [t] makes a step (nothing happens if there is no such goroutine). *)
Definition sstep (s : sys) (t : nat) : sys :=
  match nth_error (snd s) t with
  | Some g => let (o, g') := rstep (fst s) g in (o, set_nth t g' (snd s))
  | None => s
  end.
(** A schedule: which goroutine moves next. *)
Definition srun (s : sys) (sched : list nat) : sys := fold_left sstep sched s.
(** One goroutine per list of names. *)
Definition start (o : shared) (names : list (list bytes)) : sys := (o, map (fun l => mkReader l REnter []) names).
End ENV.
