(** Specification vocabulary for YAML documents: lines, flat mappings and what their values denote.
    Nothing here is used by YamlModel.v. *)
From Verif Require Import Base Values.

(** A document with the given lines: newlines between them, none inside.  A document that ends with
    a newline has the empty line as its last line. *)
Fixpoint doc (ls : list bytes) : bytes :=
  match ls with
  | [] => []
  | [l] => l
  | l :: r => l ++ 10 :: doc r
  end.
Definition no_newline (l : bytes) : Prop := ~ In 10 l.

(** [n] blanks. *)
Definition blanks (n : nat) : bytes := repeat 32 n.

(** The line [key: value] indented by [n] blanks. *)
Definition flat_line (n : nat) (kv : bytes * bytes) : bytes :=
  blanks n ++ fst kv ++ [58; 32] ++ snd kv.

(** First and last byte are not blank, carriage return or newline. *)
Definition trimmed (b : bytes) : Prop :=
  ~ In (hd 0 b) [32; 10; 13] /\ ~ In (last b 0) [32; 10; 13].
(** No blank followed by a hash sign. *)
Definition no_comment (b : bytes) : Prop := forall x y, b <> x ++ 32 :: 35 :: y.

(** A plain key: not empty, trimmed, no colon or newline, not starting a comment or a list
    item, and not the merge key. *)
Definition plain_key (k : bytes) : Prop :=
  k <> [] /\ trimmed k /\ no_comment k /\ ~ In 58 k /\ ~ In 10 k /\
  hd 0 k <> 35 /\ hd 0 k <> 45 /\ k <> [60; 60].
(** A plain value: not empty, trimmed, no newline, not an anchor or alias, not a flow collection,
    not starting with a hash sign. *)
Definition plain_value (v : bytes) : Prop :=
  v <> [] /\ trimmed v /\ no_comment v /\ ~ In 10 v /\ hd 0 v <> 38 /\ hd 0 v <> 42 /\ hd 0 v <> 35 /\
  ~ (hd 0 v = 123 /\ last v 0 = 125) /\ ~ (hd 0 v = 91 /\ last v 0 = 93).

(** The scalar a plain value denotes. *)
Definition scalar (E : env) (v : bytes) : value :=
  if beq v [116; 114; 117; 101] then VTrue
  else if beq v [102; 97; 108; 115; 101] then VFalse
  else match x_parsefloat E v with
       | Some f => VDouble f
       | None => VString v
       end.
