(** Model of yamlparse.go and of [LoadFromYaml] (dxvalue.go:278-307) on the heap of HeapModel.v.

    Simplifications.
    - [bytes.TrimFunc] returns nil exactly when nothing is left, so nil and empty slices coincide.
    - [spaceTrim] (yamlparse.go:10-12) only matches ASCII, so trimming runes is trimming bytes.
    - The stack [fParsingValues] is a list with the top first; the entries beyond its length are
      overwritten before they become visible again.
    - The text of the error is dropped: every error is [ErrYaml]. *)
From Verif Require Import Base Values HeapModel.

(** [spaceTrim] (yamlparse.go:10-12) and [bytes.TrimFunc(_,spaceTrim)]. *)
Definition is_sp (c : Z) : bool := (c =? 32) || (c =? 10) || (c =? 13).
Fixpoint drop_sp (b : bytes) : bytes :=
  match b with
  | c :: r => if is_sp c then drop_sp r else b
  | [] => []
  end.
Definition trim (b : bytes) : bytes := rev (drop_sp (rev (drop_sp b))).

(** [yamlNode] (yamlparse.go:14-18); [v] is never nil in a live entry. *)
Record ynode := mkNode { y_map : bool; y_sp : Z; y_v : nat }.
(** [yamlParser] (yamlparse.go:20-30) without [parseData]. *)
Record yp := mkYp {
  first_el : bool;                    (* ifFirstObjEle *)
  last_merge : bool;                  (* lastOpifMerge, never read *)
  use_cache : bool;                   (* usecache *)
  last_sp : Z;                        (* lastSpaceCount *)
  y_root : ptr;                       (* root *)
  y_cache : option nat;               (* fparentCache *)
  stack : list ynode;                 (* fParsingValues *)
  uses : list (bytes * nat)           (* useageValues *)
}.
Definition set_first (p : yp) (b : bool) : yp :=
  mkYp b (last_merge p) (use_cache p) (last_sp p) (y_root p) (y_cache p) (stack p) (uses p).
Definition set_last (p : yp) (z : Z) : yp :=
  mkYp (first_el p) (last_merge p) (use_cache p) z (y_root p) (y_cache p) (stack p) (uses p).
Definition set_stack (p : yp) (l : list ynode) : yp :=
  mkYp (first_el p) (last_merge p) (use_cache p) (last_sp p) (y_root p) (y_cache p) l (uses p).
Definition set_uses (p : yp) (l : list (bytes * nat)) : yp :=
  mkYp (first_el p) (last_merge p) (use_cache p) (last_sp p) (y_root p) (y_cache p) (stack p) l.
Definition set_root (p : yp) (r : nat) (c : option nat) : yp :=
  mkYp (first_el p) (last_merge p) (use_cache p) (last_sp p) (Some r) c (stack p) (uses p).
Definition push_node (p : yp) (n : ynode) : yp := set_stack p (n :: stack p).

(** The parser made by [newyamParser] when the pool is empty (yamlparse.go:42-45). *)
Definition fresh_parser : yp := mkYp false false false 0 None None [] [].
(** [reset] (yamlparse.go:53-66), called by [freeyamlParser] (48-51). *)
Definition yreset (p : yp) : yp :=
  mkYp (first_el p) (last_merge p) (use_cache p) (last_sp p) None None [] [].

(** [setCachedUseage] (yamlparse.go:68-76), [getUseage] (78-85). *)
Fixpoint set_use (l : list (bytes * nat)) (k : bytes) (v : nat) : list (bytes * nat) :=
  match l with
  | [] => [(k, v)]
  | (k', v') :: r => if beq k' k then (k', v) :: r else (k', v') :: set_use r k v
  end.
Fixpoint get_use (l : list (bytes * nat)) (k : bytes) : ptr :=
  match l with
  | [] => None
  | (k', v') :: r => if beq k' k then Some v' else get_use r k
  end.

(** [popLast] (yamlparse.go:87-98). *)
Definition popLast (l : list ynode) (n : nat) : list ynode := skipn n l.
(** The loop of [parseLine] that drops nodes indented at least as much (yamlparse.go:207-217); the
    bottom node always stays. *)
Fixpoint unwind (l : list ynode) (sc : Z) : list ynode :=
  match l with
  | [] => []
  | [n] => [n]
  | n :: r => if y_sp n <? sc then l else unwind r sc
  end.

(** [splitKv] (yamlparse.go:401-415). *)
Definition splitKv (d : bytes) : bytes * bytes * bool :=
  let d := trim d in
  match index_byte d 58 with
  | None => (d, [], false)
  | Some i =>
      match skipn (S i) d with
      | c :: r => if c =? 32 then (trim (firstn i d), trim r, true) else (d, [], false)
      | [] => (trim (firstn i d), [], true)
      end
  end.

(** [bytes.Index(dataLine,commetTag)] (yamlparse.go:184): first blank followed by a hash sign. *)
Fixpoint index_hash (b : bytes) : option nat :=
  match b with
  | [] => None
  | c :: r =>
      if (c =? 32) && (match r with c' :: _ => c' =? 35 | [] => false end) then Some O
      else option_map S (index_hash r)
  end.

(** The part of [b] before position of the first blank, without its first byte:
    [value[1:spaceindex]] or [value[1:]] (yamlparse.go:240-245, 456-462). *)
Definition anchor_name (b : bytes) : bytes :=
  match index_byte b 32 with
  | Some i => skipn 1 (firstn i b)
  | None => skipn 1 b
  end.

Definition b_true : bytes := [116; 114; 117; 101].
Definition b_false : bytes := [102; 97; 108; 115; 101].
Definition b_merge : bytes := [60; 60].

(** Number of leading blanks of a line (yamlparse.go:484-498). *)
Fixpoint lead (b : bytes) : nat :=
  match b with
  | c :: r => if c =? 32 then S (lead r) else O
  | [] => O
  end.
(** The bytes before the next newline. *)
Fixpoint line_of (b : bytes) : bytes :=
  match b with
  | c :: r => if c =? 10 then [] else c :: line_of r
  | [] => []
  end.

Section Yaml.
Variable E : env.
Variable G : nat -> nat.
(** Which pooled [ValueCache] [getCache] receives in a given state. *)
Variable pick : st -> option nat.
(** Fuel of the recursive [clone]. *)
Variable cf : nat.

(** Outcome of a parser step: error or nil, parser, heap. *)
Definition yres := res (option gerr * yp * st).

(** New root (yamlparse.go:116-124, 265-273). *)
Definition new_root (p : yp) (s : st) (t : vtype) : yp * st * nat :=
  if use_cache p then
    let (k, s1) := getCache s (pick s) in
    let (r, s2) := getValue G s1 (Some k) t in
    (push_node (set_root p r (Some k)) (mkNode false (-1) r), s2, r)
  else
    let (r, s1) := NewCacheValue G s (pick s) t in
    (push_node (set_root p r (c_own (hp s1 r))) (mkNode false (-1) r), s1, r).

(** [parseStringValue] (yamlparse.go:417-471).  [d] is 1 when [isfirst] holds, else 0. *)
Fixpoint parseStringValue (d : nat) (p : yp) (s : st) (t : nat) (v : bytes) : res (yp * st) :=
  if beq v b_true then Ok (p, SetBool s t true)
  else if beq v b_false then Ok (p, SetBool s t false)
  else match x_parsefloat E v with
  | Some f => Ok (p, SetDouble s t f)
  | None =>
      match v with
      | [] => Panic
      | c :: _ =>
          let e := last v 0 in
          if (c =? 123) && (e =? 125) then Ok (p, s)
          else if (c =? 91) && (e =? 93) then Ok (p, s)
          else if c =? 38 then
            match d with
            | O => Ok (p, SetString s t v)
            | S d' =>
                match index_byte v 32 with
                | Some i =>
                    let p1 := set_uses p (set_use (uses p) (skipn 1 (firstn i v)) t) in
                    match trim (skipn (S i) v) with
                    | [] => Ok (p1, SetString s t [])
                    | w => parseStringValue d' p1 s t w
                    end
                | None => Ok (p, SetString s t [])
                end
            end
          else if c =? 42 then
            match get_use (uses p) (anchor_name v) with
            | None => Ok (p, SetString s t v)
            | Some u => do s1 <- CopyFrom G cf s t u (y_cache p); Ok (p, s1)
            end
          else Ok (p, SetString s t v)
      end
  end.

(** [mergeObject] (yamlparse.go:232-257). *)
Definition mergeObj (p : yp) (s : st) (l : nat) (key value : bytes) : res (option gerr * bool * st) :=
  if beq key b_merge then
    match value with
    | [] => Ok (Some ErrYaml, false, s)
    | c :: _ =>
        if c =? 42 then
          match anchor_name value with
          | [] => Ok (None, false, s)
          | name =>
              match get_use (uses p) name with
              | Some u =>
                  if vt_eqb (c_dt (hp s u)) TObject then
                    do s1 <- AddFrom G cf s l u (y_cache p); Ok (None, true, s1)
                  else Ok (None, false, s)
              | None => Ok (None, false, s)
              end
          end
        else Ok (None, false, s)
    end
  else Ok (None, false, s).

(** [parseArray] (yamlparse.go:100-172). *)
Definition parseArray (p : yp) (s : st) (line : bytes) (sc : Z) : yres :=
  let bad := match line with c :: _ => negb (c =? 32) && (sc <=? last_sp p) | [] => false end in
  if bad then Ok (Some ErrYaml, p, s)
  else
    let d := trim line in
    let isvalue := match d with [] => false | _ => true end in
    let '(p1, s1, cur) := match stack p with
                          | [] => new_root p s TArray
                          | n :: _ => (p, s, y_v n)
                          end in
    let s2 := if vt_eqb (c_dt (hp s1 cur)) TObject then Reset s1 cur TArray else s1 in
    if vt_eqb (c_dt (hp s2 cur)) TArray then
      let (el, s3) := SetIndexCached G s2 cur (-1) (if isvalue then TString else TArray) (y_cache p1) in
      let p3 := push_node p1 (mkNode false sc el) in
      if isvalue then
        let '(k, v, split) := splitKv d in
        if negb split then
          do (p4, s4) <- parseStringValue 1 p3 s3 el k; Ok (None, p4, s4)
        else match k with
        | [] => Ok (Some ErrYaml, p3, s3)
        | _ =>
            let s4 := Reset s3 el TObject in
            let p4 := set_first (push_node p1 (mkNode true sc el)) true in
            match v with
            | [] =>
                do (x, s5) <- SetKeyCached E G s4 el k TNull (y_cache p4);
                Ok (None, push_node p4 (mkNode true sc x), s5)
            | _ =>
                do (x, s5) <- SetKeyCached E G s4 el k TString (y_cache p4);
                do (p6, s6) <- parseStringValue 1 p4 s5 x v;
                Ok (None, push_node p6 (mkNode true sc x), s6)
            end
        end
      else Ok (None, p3, s3)
    else if isvalue then
      let (str, c) := StringOf E (hp s2 cur) in
      Ok (None, p1, SetString (set_cell s2 cur c) cur (str ++ [32] ++ d))
    else Ok (None, p1, s2).

(** The value of [key] in the deeper-indentation branch of [parseObject] (yamlparse.go:334-375). *)
Definition sub_value (p : yp) (s : st) (cur : nat) (key value : bytes) : res (nat * yp * st) :=
  match value with
  | [] => do (x, s1) <- SetKeyCached E G s cur key TObject (y_cache p); Ok (x, p, s1)
  | c :: r =>
      if negb (c =? 38) then
        if c =? 42 then
          match get_use (uses p) r with
          | Some u =>
              do (x, s1) <- clone G cf s (Some u) (y_cache p);
              Ok (x, p, SetKeyValue E G s1 cur key (Some x))
          | None =>
              do (x, s1) <- SetKeyCached E G s cur key TString (y_cache p);
              Ok (x, p, SetString s1 x value)
          end
        else
          do (x, s1) <- SetKeyCached E G s cur key TString (y_cache p);
          do (p2, s2) <- parseStringValue 1 p s1 x value;
          Ok (x, p2, s2)
      else
        let '(ref, w) := match index_byte r 32 with
                         | Some (S i) => (firstn (S i) r, trim (skipn (S i) r))
                         | _ => (r, [])
                         end in
        do (x, p2, s2) <-
          match w with
          | [] => do (x, s1) <- SetKeyCached E G s cur key TObject (y_cache p); Ok (x, p, s1)
          | _ =>
              do (x, s1) <- SetKeyCached E G s cur key TString (y_cache p);
              do (p2, s2) <- parseStringValue 1 p s1 x w;
              Ok (x, p2, s2)
          end;
        Ok (x, set_uses p2 (set_use (uses p2) ref x), s2)
  end.

(** [parseObject] (yamlparse.go:259-399). *)
Definition parseObject (p : yp) (s : st) (line : bytes) (sc : Z) : yres :=
  let lsp := match stack p with
             | n :: _ => if first_el p && y_map n then last_sp p + 2 else last_sp p
             | [] => last_sp p
             end in
  let newroot := match stack p with [] => true | _ => false end in
  let '(p1, s1, cur) := match stack p with
                        | [] => new_root p s TObject
                        | n :: _ => (p, s, y_v n)
                        end in
  let p1 := set_first p1 false in
  let '(key, value, split) := splitKv line in
  let nokv := match key with [] => true | _ => negb split end in
  if newroot && nokv then Ok (Some ErrYaml, p1, s1)
  else if lsp =? sc then
    if nokv then Ok (Some ErrYaml, p1, s1)
    else
      do (e, merged, s2) <- mergeObj p1 s1 cur key value;
      match e with
      | Some e => Ok (Some e, p1, s2)
      | None =>
          do (cur', p3, s3) <-
            (if merged : bool then Ok (cur, p1, s2)
             else match value with
             | [] => do (x, s3) <- SetKeyCached E G s2 cur key TObject (y_cache p1); Ok (x, p1, s3)
             | _ =>
                 do (x, s3) <- SetKeyCached E G s2 cur key TString (y_cache p1);
                 do (p4, s4) <- parseStringValue 1 p1 s3 x value;
                 Ok (x, p4, s4)
             end);
          Ok (None, push_node p3 (mkNode false sc cur'), s3)
      end
  else if lsp <? sc then
    match key with
    | [] =>
        if vt_eqb (c_dt (hp s1 cur)) TObject || vt_eqb (c_dt (hp s1 cur)) TArray
        then Ok (Some ErrYaml, p1, s1)
        else
          let (str, c) := StringOf E (hp s1 cur) in
          Ok (None, p1, SetString (set_cell s1 cur c) cur (str ++ [32; 58] ++ value))
    | _ =>
        let s2 := if vt_eqb (c_dt (hp s1 cur)) TObject then s1 else Reset s1 cur TObject in
        do (e, merged, s3) <- mergeObj p1 s2 cur key value;
        match e with
        | Some e => Ok (Some e, p1, s3)
        | None =>
            if merged : bool then Ok (None, push_node p1 (mkNode false sc cur), s3)
            else
              do (x, p4, s4) <- sub_value p1 s3 cur key value;
              Ok (None, push_node p4 (mkNode false sc x), s4)
        end
    end
  else
    if nokv || negb (vt_eqb (c_dt (hp s1 cur)) TObject) then Ok (Some ErrYaml, p1, s1)
    else match value with
    | [] =>
        do (x, s2) <- SetKeyCached E G s1 cur key TObject (y_cache p1);
        Ok (None, push_node p1 (mkNode false sc x), s2)
    | _ =>
        do (e, merged, s2) <- mergeObj p1 s1 cur key value;
        match e with
        | Some e => Ok (Some e, p1, s2)
        | None =>
            if merged : bool then Ok (None, push_node p1 (mkNode false sc cur), s2)
            else
              do (x, s3) <- SetKeyCached E G s2 cur key TString (y_cache p1);
              do (p4, s4) <- parseStringValue 1 p1 s3 x value;
              Ok (None, push_node p4 (mkNode false sc x), s4)
        end
    end.

(** [parseLine] (yamlparse.go:176-230); [line] starts with [sc] blanks. *)
Definition parseLine (p : yp) (s : st) (line : bytes) (sc : nat) : yres :=
  match skipn sc line with
  | [] => Panic
  | (c :: _) as d0 =>
      if c =? 35 then Ok (None, p, s)
      else
        let d := match index_hash d0 with
                 | Some (S (S i)) => firstn (S (S i)) d0
                 | _ => d0
                 end in
        match d with
        | [] => Ok (None, p, s)
        | c :: r =>
            let z := Z.of_nat sc in
            let lsp := match stack p with
                       | n :: _ => if first_el p && y_map n then last_sp p + 2 else last_sp p
                       | [] => last_sp p
                       end in
            let p1 := if z <? lsp then set_stack p (unwind (popLast (stack p) 2) z)
                      else if lsp =? z then set_stack p (popLast (stack p) 1)
                      else p in
            do (e, p2, s2) <- (if c =? 45 then parseArray p1 s r z else parseObject p1 s d z);
            Ok (e, set_last p2 z, s2)
        end
  end.

(** The loop of [parse] (yamlparse.go:482-515); [istart] may pass the end of the data by one. *)
Fixpoint yloop (n : nat) (p : yp) (s : st) (data : bytes) (istart : nat) : yres :=
  match n with
  | O => OutOfFuel
  | S n' =>
      let line := line_of (skipn istart data) in
      let e := Nat.min (istart + List.length line) (List.length data) in
      if (e - istart <? 2)%nat then
        if (S e =? List.length data)%nat then Ok (None, p, s) else yloop n' p s data (S e)
      else
        do (er, p1, s1) <- parseLine p s line (lead line);
        match er with
        | Some _ => Ok (er, p1, s1)
        | None => if (List.length data <=? S e)%nat then Ok (None, p1, s1)
                  else yloop n' p1 s1 data (S e)
        end
  end.
(** [parse] (yamlparse.go:473-517). *)
Definition yparse (n : nat) (p : yp) (s : st) (data : bytes) : yres :=
  match data with
  | [] => Ok (None, p, s)
  | _ => yloop n (mkYp (first_el p) false (use_cache p) (-1) (y_root p) (y_cache p) (stack p) (uses p))
               s data O
  end.

(** [NewValueFromYaml] (yamlparse.go:519-531) with the parser [p] obtained from the pool: the
    result, the parser put back and the heap. *)
Definition NewValueFromYaml (n : nat) (p : yp) (s : st) (b : bytes) (usecache : bool)
  : res (option gerr * ptr * yp * st) :=
  do (e, p1, s1) <-
    yparse n (mkYp (first_el p) (last_merge p) usecache (last_sp p) (y_root p) (y_cache p)
                   (stack p) (uses p)) s b;
  Ok (e, match e with Some _ => None | None => y_root p1 end, yreset p1, s1).

(** Leading white space (dxvalue.go:280-287). *)
Fixpoint drop_ws (b : bytes) : bytes :=
  match b with
  | c :: r => if (c =? 32) || (c =? 13) || (c =? 10) || (c =? 9) then drop_ws r else b
  | [] => []
  end.
(** [LoadFromYaml] (dxvalue.go:278-307) with the parser [p] obtained from the pool. *)
Definition LoadFromYaml (n : nat) (p : yp) (s : st) (l : nat) (b : bytes)
  : res (option gerr * yp * st) :=
  do s1 <- Clear s l;
  match drop_ws b with
  | [] => Ok (None, p, s1)
  | (c :: _) as d =>
      let s2 := Reset s1 l (if c =? 45 then TArray else TObject) in
      let p1 := mkYp (first_el p) (last_merge p) false (last_sp p) (Some l) (c_own (hp s2 l))
                  (mkNode false (-1) l :: stack p) (uses p) in
      do (e, p2, s3) <- yparse n p1 s2 d;
      Ok (e, yreset p2, s3)
  end.
End Yaml.
