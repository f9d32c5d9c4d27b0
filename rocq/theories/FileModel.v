(** Files: [ReadFile] (iofiles.go:9-48), the file constructors (jsonparse.go:841-850, msgpackparse.go:501-507,
    yamlparse.go:533-542),
    [Value2File] (jsonparse.go:852-869) and [SaveBinaryToFile] (bin_value.go:77-94).
    Simplified: an allocation of any size succeeds; a successful write writes everything. *)
From Verif Require Import Base Values HeapModel MsgPackModel JsonModel YamlModel.

(** What the operating system does with one file while it is read: the size [Stat] reports (none: [Stat]
    fails), the content, how many bytes the k-th read delivers at most, whether the last bytes come
    together with [io.EOF], and which read fails, if any. *)
Record disk := mkDisk {
  d_stat : option Z; d_content : bytes; d_chunk : nat -> nat; d_eager : bool; d_fail : option nat }.
Inductive rerr := EOF | Failed.
(** [f.Read] of the [k]-th call at offset [off] into a buffer of [room] bytes. *)
Definition f_read (d : disk) (k off room : nat) : bytes * option rerr :=
  if (room =? 0)%nat then ([], None)
  else if match d_fail d with Some j => (j =? k)%nat | None => false end then ([], Some Failed)
  else
    let rest := skipn off (d_content d) in
    let got := firstn (Nat.min (d_chunk d k) room) rest in
    match rest with
    | [] => ([], Some EOF)
    | _ => (got, if d_eager d && (List.length got =? List.length rest)%nat then Some EOF else None)
    end.

(** The capacity asked for (iofiles.go:16-30). *)
Definition first_cap (d : disk) : Z :=
  let size := match d_stat d with Some z => z | None => 0 end in
  let size := to_i64 (size + 1) in
  if size <? 512 then 512 else size.

(** The loop (iofiles.go:33-47): [arr] is the array behind [data], [len] its length; [G] is how much more
    than needed [append] allocates.  The result is the data and whether an error is returned with it. *)
Fixpoint read_loop (G : nat -> nat) (d : disk) (fuel k : nat) (arr : bytes) (len : nat) : res (bytes * bool) :=
  match fuel with
  | O => OutOfFuel
  | S fuel' =>
      let arr := if (List.length arr <=? len)%nat then arr ++ 0 :: repeat 0 (G (List.length arr)) else arr in
      let (b, e) := f_read d k len (List.length arr - len) in
      let arr := firstn len arr ++ b ++ skipn (len + List.length b) arr in
      let len := (len + List.length b)%nat in
      match e with
      | Some EOF => Ok (firstn len arr, false)
      | Some Failed => Ok (firstn len arr, true)
      | None => read_loop G d fuel' (S k) arr len
      end
  end.
(** [ReadFile] once the file is open. *)
Definition ReadFile (G : nat -> nat) (d : disk) (fuel : nat) : res (bytes * bool) :=
  read_loop G d fuel 0 (repeat 0 (Z.to_nat (first_cap d))) 0.

(** jsonparse.go:846-848, yamlparse.go:537-539. *)
Definition drop_bom (b : bytes) : bytes :=
  if (2 <? zlen b) && (nth 0 b 0 =? 239) && (nth 1 b 0 =? 187) && (nth 2 b 0 =? 191) then skipn 3 b else b.
(** [NewValueFromJsonFile] and [NewValueFromMsgPackFile]; the error of [ReadFile] is passed on. *)
Definition NewValueFromJsonFile (E : env) (G : nat -> nat) (d : disk) (fuel : nat) : res value :=
  do (b, bad) <- ReadFile G d fuel; if bad then Err ErrIO else NewValueFromJson E (drop_bom b).
Definition NewValueFromMsgPackFile (E : env) (G : nat -> nat) (d : disk) (fuel : nat) : res value :=
  do (b, bad) <- ReadFile G d fuel; if bad then Err ErrIO else NewValueFromMsgPack E b.

(** [NewValueFromYamlFile] (yamlparse.go:533-542) with the parser [p] obtained from the pool; no parser is
    taken from the pool if the file cannot be read. *)
Definition NewValueFromYamlFile (E : env) (G : nat -> nat) (pick : st -> option nat) (cf n : nat) (p : yp) (s : st)
  (d : disk) (use : bool) (fuel : nat) : res (option gerr * ptr * yp * st) :=
  do (b, bad) <- ReadFile G d fuel;
  if bad then Ok (Some ErrIO, None, p, s) else NewValueFromYaml E G pick cf n p s (drop_bom b) use.

(** ** Writing *)
(** Files by name, and which names may be opened (existing ones, or new ones). *)
Record fsys := mkFs { f_files : bytes -> option bytes; f_allowed : bytes -> bool }.
Record oflags := mkFlags { o_create : bool; o_trunc : bool; o_write : bool }.
(** [os.OpenFile] on Linux: the file system after opening.  [O_TRUNC] truncates even when the file is opened
    for reading only. *)
Definition open_file (fs : fsys) (name : bytes) (fl : oflags) : option fsys :=
  if f_allowed fs name then
    match f_files fs name with
    | Some c => Some (mkFs (fun n => if beq n name then Some (if o_trunc fl then [] else c) else f_files fs n) (f_allowed fs))
    | None => if o_create fl then Some (mkFs (fun n => if beq n name then Some [] else f_files fs n) (f_allowed fs)) else None
    end
  else None.
(** [file.Write]: at the end of what was written before; an error if the file is not open for writing. *)
Definition f_write (fs : fsys) (name : bytes) (fl : oflags) (b : bytes) : option fsys :=
  if o_write fl then
    Some (mkFs (fun n => if beq n name then Some (match f_files fs name with Some c => c | None => [] end ++ b) else f_files fs n) (f_allowed fs))
  else None.

(** [Value2File] (jsonparse.go:852-869): the file system afterwards and whether an error is returned. *)
Definition Value2File (E : env) (fs : fsys) (v : value) (name : bytes) (bom format : bool) : res (fsys * bool) :=
  let fl := mkFlags true true true in
  match open_file fs name fl with
  | None => Ok (fs, true)
  | Some fs1 =>
      let fs2 := if bom then match f_write fs1 name fl [239; 187; 191] with Some f => f | None => fs1 end else fs1 in
      do dst <- (if format then Value2FormatJson E JSE_OnlyAnsiChar false v [] else Value2Json E JSE_OnlyAnsiChar false v []);
      match f_write fs2 name fl dst with Some fs3 => Ok (fs3, false) | None => Ok (fs2, true) end
  end.
(** [SaveBinaryToFile] (bin_value.go:77-94) on a value of type [t] with [fbinary] = [b]. *)
Definition SaveBinaryToFile (fs : fsys) (t : vtype) (b : bytes) (name : bytes) : fsys * bool :=
  let fl := mkFlags true true false in
  let save fs1 x := match f_write fs1 name fl x with Some fs2 => (fs2, false) | None => (fs1, true) end in
  match t with
  | TBinary => match open_file fs name fl with Some fs1 => save fs1 b | None => (fs, true) end
  | TExBinary =>
      match open_file fs name fl with
      | Some fs1 => match b with [] => (fs1, false) | _ :: r => save fs1 r end
      | None => (fs, true)
      end
  | _ => (fs, false)
  end.
