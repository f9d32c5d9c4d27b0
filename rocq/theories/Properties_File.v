(** Properties C50 and C56: files. *)
From Coq Require Import String.
From Verif Require Import Base Values Tactics Env0 HeapModel MsgPackModel JsonModel JsonSpec JsonLex JsonParse JsonSound
  JsonWrite JsonThms YamlModel FileModel FileThms.

(** ** C50 *)
(** Whatever size [Stat] reports (or if it fails), whatever [append] allocates, however the reads are cut and
    wherever [io.EOF] shows up: the content. *)
Theorem C50_content : forall G d, (forall k, (0 < d_chunk d k)%nat) -> d_fail d = None ->
  ReadFile G d (S (List.length (d_content d))) = Ok (d_content d, false).
Proof. exact ReadFile_total. Qed.
Print Assumptions C50_content.
(** Even if some reads deliver nothing: when it returns without error, it returns the content; with an error,
    a prefix. *)
Theorem C50_returned : forall G d fuel data bad, ReadFile G d fuel = Ok (data, bad) ->
  (bad = false -> data = d_content d) /\ (bad = true -> d_fail d <> None /\ exists n, data = firstn n (d_content d)).
Proof. exact ReadFile_sound. Qed.
Print Assumptions C50_returned.
Definition disk1 (c : bytes) : disk := mkDisk (Some 3) c (fun k => S (Nat.modulo k 3) * 100)%nat false None.
Definition text1 : bytes := concat (repeat (bs "0123456789") 60).
Example C50_nonvacuous : (forall k, (0 < d_chunk (disk1 text1) k)%nat) /\
  ReadFile (fun n => 7%nat) (disk1 text1) 5 = OutOfFuel /\ ReadFile (fun n => n) (disk1 text1) 5 = Ok (text1, false) /\
  ReadFile (fun n => n) (mkDisk None text1 (fun _ => 100%nat) true (Some 2%nat)) 5 = Ok (firstn 200 text1, true).
Proof. split; [intros k; cbn; lia|]. do 2 (split; [vm_compute; reflexivity|]). vm_compute. reflexivity. Qed.

(** A byte order mark before a JSON document is ignored; only one, and only there. *)
Theorem C50_bom : forall E G d b, (forall k, (0 < d_chunk d k)%nat) -> d_fail d = None ->
  d_content d = [239; 187; 191] ++ b -> NewValueFromJsonFile E G d (S (List.length (d_content d))) = NewValueFromJson E b.
Proof.
  intros E G d b CH NF C. unfold NewValueFromJsonFile. rewrite (ReadFile_total G d CH NF). cbn [bind]. rewrite C. unfold drop_bom.
  replace (2 <? zlen ([239; 187; 191] ++ b)) with true; [reflexivity|]. symmetry. apply Z.ltb_lt. unfold zlen. cbn [List.length app]. lia.
Qed.
Print Assumptions C50_bom.
Theorem C50_no_bom : forall E G d, (forall k, (0 < d_chunk d k)%nat) -> d_fail d = None ->
  (forall b, d_content d <> [239; 187; 191] ++ b) ->
  NewValueFromJsonFile E G d (S (List.length (d_content d))) = NewValueFromJson E (d_content d).
Proof.
  intros E G d CH NF C. unfold NewValueFromJsonFile. rewrite (ReadFile_total G d CH NF). cbn [bind]. f_equal. unfold drop_bom.
  destruct (d_content d) as [|x [|y [|z r]]] eqn:D; try reflexivity. cbn [nth].
  destruct (Z.eqb_spec x 239) as [->|]; [|rewrite andb_false_r; reflexivity].
  destruct (Z.eqb_spec y 187) as [->|]; [|rewrite andb_false_r; reflexivity].
  destruct (Z.eqb_spec z 191) as [->|]; [|rewrite andb_false_r; reflexivity].
  exfalso. exact (C r eq_refl).
Qed.
Print Assumptions C50_no_bom.
Theorem C50_msgpack : forall E G d, (forall k, (0 < d_chunk d k)%nat) -> d_fail d = None ->
  NewValueFromMsgPackFile E G d (S (List.length (d_content d))) = NewValueFromMsgPack E (d_content d).
Proof. intros E G d CH NF. unfold NewValueFromMsgPackFile. rewrite (ReadFile_total G d CH NF). reflexivity. Qed.
Print Assumptions C50_msgpack.

(** The document in a file: what follows the mark, if there is one. *)
Definition document (c b : bytes) : Prop := c = [239; 187; 191] ++ b \/ (b = c /\ forall r, c <> [239; 187; 191] ++ r).
Lemma drop_bom_document c : document c (drop_bom c).
Proof.
  unfold drop_bom, document.
  destruct c as [|x [|y [|z r]]]; try (right; split; [reflexivity|intros r0 H; discriminate H]). cbn [nth skipn].
  replace (2 <? zlen (x :: y :: z :: r)) with true by (symmetry; apply Z.ltb_lt; unfold zlen; cbn [List.length]; lia).
  destruct (Z.eqb_spec x 239) as [->|N]; [|right; split; [reflexivity|intros r0 H; cbn in H; congruence]].
  destruct (Z.eqb_spec y 187) as [->|N]; [|right; split; [reflexivity|intros r0 H; cbn in H; congruence]].
  destruct (Z.eqb_spec z 191) as [->|N]; [|right; split; [reflexivity|intros r0 H; cbn in H; congruence]].
  left. reflexivity.
Qed.
Lemma document_one c b b' : document c b -> document c b' -> b = b'.
Proof.
  intros [->|[-> N]] [H|[-> N']]; auto.
  - apply app_inv_head in H. exact H.
  - destruct (N' b eq_refl).
  - destruct (N b' H).
Qed.
(** Whatever the disk does - short reads, empty reads, reads that fail at any point: a loader that returns a
    value has read the whole file; nothing is ever made of a part of it. *)
Theorem C50_loaded : forall E G d fuel v,
  (NewValueFromJsonFile E G d fuel = Ok v -> exists b, document (d_content d) b /\ NewValueFromJson E b = Ok v) /\
  (NewValueFromMsgPackFile E G d fuel = Ok v -> NewValueFromMsgPack E (d_content d) = Ok v).
Proof.
  intros E G d fuel v. unfold NewValueFromJsonFile, NewValueFromMsgPackFile.
  destruct (ReadFile G d fuel) as [[b bad]| | |] eqn:R; cbn [bind]; try (split; discriminate).
  destruct (ReadFile_sound _ _ _ _ _ R) as [S1 S2]. destruct bad; [split; discriminate|]. rewrite (S1 eq_refl).
  split; [|auto]. intros H. exists (drop_bom (d_content d)). split; [apply drop_bom_document|exact H].
Qed.
Print Assumptions C50_loaded.
(** The same for YAML, with the memory: either the file was read and the result, the parser and the memory are
    those of the document, or an error is returned, with nothing made and nothing changed. *)
Theorem C50_yaml : forall E G pick cf n p s d use fuel e x p' s',
  NewValueFromYamlFile E G pick cf n p s d use fuel = Ok (e, x, p', s') ->
  (exists b, document (d_content d) b /\ NewValueFromYaml E G pick cf n p s b use = Ok (e, x, p', s')) \/
  (d_fail d <> None /\ e = Some ErrIO /\ x = None /\ p' = p /\ s' = s).
Proof.
  intros E G pick cf n p s d use fuel e x p' s'. unfold NewValueFromYamlFile.
  destruct (ReadFile G d fuel) as [[b bad]| | |] eqn:R; cbn [bind]; try discriminate.
  destruct (ReadFile_sound _ _ _ _ _ R) as [S1 S2]. destruct bad.
  - intros [= <- <- <- <-]. right. destruct (S2 eq_refl). auto.
  - rewrite (S1 eq_refl). intros H. left. exists (drop_bom (d_content d)). split; [apply drop_bom_document|exact H].
Qed.
Print Assumptions C50_yaml.
Theorem C50_yaml_read : forall E G pick cf n p s d b use, (forall k, (0 < d_chunk d k)%nat) -> d_fail d = None ->
  document (d_content d) b ->
  NewValueFromYamlFile E G pick cf n p s d use (S (List.length (d_content d))) = NewValueFromYaml E G pick cf n p s b use.
Proof.
  intros E G pick cf n p s d b use CH NF D. unfold NewValueFromYamlFile. rewrite (ReadFile_total G d CH NF). cbn [bind].
  rewrite (document_one _ _ _ D (drop_bom_document _)). reflexivity.
Qed.
Print Assumptions C50_yaml_read.
Example C50_loaded_nonvacuous :
  NewValueFromMsgPackFile (env0 false) (fun n => n) (mkDisk (Some 0) [1; 2] (fun k => k) true (Some 9%nat)) 9 = NewValueFromMsgPack (env0 false) [1; 2] /\
  NewValueFromJsonFile (env0 false) (fun n => n) (mkDisk (Some 0) (bs "[1]   x") (fun k => 3%nat) true (Some 1%nat)) 9 = Err ErrIO /\
  NewValueFromMsgPackFile (env0 false) (fun n => n) (mkDisk (Some 0) [1] (fun k => k) false (Some 2%nat)) 9 = Err ErrIO /\
  document ([239; 187; 191] ++ bs "a: 1") (bs "a: 1") /\
  (match NewValueFromYamlFile (env0 false) (fun n => n) (fun _ => None) 9 9 fresh_parser st0 (disk1 ([239; 187; 191] ++ bs "a: 1")) false 9 with
   | Ok (None, Some l, _, s) => Some (map fst (c_kvs (hp s l))) | _ => None end) = Some [bs "a"] /\
  NewValueFromYamlFile (env0 false) (fun n => n) (fun _ => None) 9 9 fresh_parser st0 (mkDisk None (bs "a: 1") (fun _ => 2%nat) true (Some 1%nat)) false 9
    = Ok (Some ErrIO, None, fresh_parser, st0).
Proof. do 3 (split; [vm_compute; reflexivity|]). split; [left; reflexivity|]. split; vm_compute; reflexivity. Qed.
Example C50_bom_nonvacuous :
  NewValueFromJsonFile (env0 false) (fun n => n) (disk1 ([239; 187; 191] ++ bs "[1]")) 7 = Ok (VArray [VInt 0 1]) /\
  NewValueFromJsonFile (env0 false) (fun n => n) (disk1 (bs "[1]")) 4 = Ok (VArray [VInt 0 1]) /\
  NewValueFromMsgPackFile (env0 false) (fun n => n) (disk1 [1]) 2 = Ok (VInt 0 1).
Proof. do 2 (split; [vm_compute; reflexivity|]). vm_compute. reflexivity. Qed.

(** Written by [Value2File], with or without mark, compact or formatted, and read back. *)
Lemma dialect_no_bom t b : dialect t b -> hd 0 b <> 239.
Proof.
  intros H. destruct H; try (cbn; discriminate). destruct H; try (cbn; discriminate).
  - destruct H as (H1 & _ & _ & H2). destruct H2 as [|c r N _]; [congruence|]. cbn. destruct N as [D|D]; [unfold digit in D; lia|].
    cbn in D. lia.
  - destruct H0 as (x & y & z & -> & X & _). destruct H as [->|[->| ->]]; cbn; try discriminate. destruct X as [->| ->]; cbn; discriminate.
  - destruct H0 as (x & y & z & -> & X & _). destruct H as [->|[->| ->]]; cbn; try discriminate. destruct X as [->| ->]; cbn; discriminate.
Qed.
Theorem C50_written : forall E G fs v name bom format, int_parser_ok E -> jplain E false v -> ~ top_int v -> f_allowed fs name = true ->
  exists fs' c, Value2File E fs v name bom format = Ok (fs', false) /\ f_files fs' name = Some c /\
    (forall n, n <> name -> f_files fs' n = f_files fs n) /\
    forall d, d_content d = c -> (forall k, (0 < d_chunk d k)%nat) -> d_fail d = None ->
      exists v', NewValueFromJsonFile E G d (S (List.length c)) = Ok v' /\ denote E v' = denote E v.
Proof.
  intros E G fs v name bom format HE JP NT AL.
  pose proof (jplain_writable E JSE_OnlyAnsiChar false false v eq_refl JP) as W.
  destruct (format_same E JSE_OnlyAnsiChar false v [] W) as (bc & bf & P1 & P2 & P3 & t & D1 & D2).
  destruct (json_roundtrip E JSE_OnlyAnsiChar false false v [] HE eq_refl JP (Forall_nil _) ltac:(intros T; contradiction)) as (b0 & v' & Q1 & Q2 & Q3).
  rewrite P1 in Q1. injection Q1 as <-. rewrite app_nil_r in Q2. cbn [List.app] in *.
  set (body := if format then bf else bc).
  assert (PB : (if format then Value2FormatJson E JSE_OnlyAnsiChar false v [] else Value2Json E JSE_OnlyAnsiChar false v []) = Ok body) by (unfold body; destruct format; assumption).
  assert (RB : NewValueFromJson E body = Ok v') by (unfold body; destruct format; congruence).
  assert (HB : hd 0 body <> 239) by (unfold body; destruct format; eapply dialect_no_bom; eauto).
  set (c := (if bom then [239; 187; 191] else []) ++ body).
  assert (WR : exists fs', Value2File E fs v name bom format = Ok (fs', false) /\ f_files fs' name = Some c /\ (forall n, n <> name -> f_files fs' n = f_files fs n)).
  { unfold Value2File, open_file. rewrite AL.
    assert (NB : forall n, n <> name -> beq n name = false) by (intros n N; destruct (beq n name) eqn:B; [apply beq_eq in B; contradiction|reflexivity]).
    destruct (f_files fs name) as [old|] eqn:F; cbn [o_create o_trunc f_files]; rewrite PB; cbn [bind];
      (destruct bom; unfold f_write; cbn [o_write f_files]; rewrite ?beq_refl; eexists; (split; [reflexivity|]); split; cbn [f_files];
        [rewrite beq_refl; reflexivity|intros n N; rewrite ?(NB n N); reflexivity|rewrite beq_refl; reflexivity|intros n N; rewrite ?(NB n N); reflexivity]). }
  destruct WR as (fs' & W1 & W2 & W3). exists fs', c. split; [exact W1|]. split; [exact W2|]. split; [exact W3|].
  intros d DC CH NF. exists v'. split; [|exact Q3]. rewrite <- DC. unfold c in DC. destruct bom.
  - rewrite (C50_bom E G d body CH NF DC). exact RB.
  - cbn [List.app] in DC. rewrite C50_no_bom; auto; [rewrite DC; exact RB|]. intros b B. rewrite DC in B. rewrite B in HB. exact (HB eq_refl).
Qed.
Print Assumptions C50_written.
Definition fs1 : fsys := mkFs (fun n => if beq n (bs "old") then Some (bs "x") else None) (fun _ => true).
Definition doc1 : value := VObject true [(bs "a", VInt 0 5)].
Example C50_written_nonvacuous : int_parser_ok (env0 false) /\ jplain (env0 false) false doc1 /\ ~ top_int doc1 /\
  (do (f, bad) <- Value2File (env0 false) fs1 doc1 (bs "old") true false; Ok (f_files f (bs "old"), bad)) = Ok (Some ([239; 187; 191] ++ bs "{""a"":5}"), false).
Proof.
  split; [apply env0_ints|]. split; [cbn; repeat split; try discriminate; intros H; cbn in H; lia|]. split; [intros []|]. vm_compute. reflexivity.
Qed.

(** ** C56 *)
(** What saving a binary is meant to achieve. *)
Definition payload (t : vtype) (b : bytes) : bytes := match t with TExBinary => tl b | _ => b end.
Definition saves (fs : fsys) (t : vtype) (b name : bytes) : Prop :=
  f_files (fst (SaveBinaryToFile fs t b name)) name = Some (payload t b).
(** It never works: the file is opened for reading.  An error is returned and an existing file is emptied. *)
Theorem C56_refuted : forall fs t b name, t = TBinary \/ (t = TExBinary /\ b <> []) -> f_allowed fs name = true ->
  snd (SaveBinaryToFile fs t b name) = true /\ f_files (fst (SaveBinaryToFile fs t b name)) name = Some [] /\
  (payload t b <> [] -> ~ saves fs t b name).
Proof.
  intros fs t b name T AL. unfold saves.
  assert (R : snd (SaveBinaryToFile fs t b name) = true /\ f_files (fst (SaveBinaryToFile fs t b name)) name = Some []).
  { unfold SaveBinaryToFile, open_file. rewrite AL. destruct T as [->|[-> N]]; [|destruct b as [|x r]; [congruence|]];
      destruct (f_files fs name); cbn; rewrite beq_refl; auto. }
  destruct R as [R1 R2]. split; [exact R1|]. split; [exact R2|]. intros P S0. rewrite R2 in S0. injection S0 as S0. congruence.
Qed.
Print Assumptions C56_refuted.
(** Nothing but that file is touched, and other types write no file at all. *)
Theorem C56_other_files : forall fs t b name n, n <> name -> f_files (fst (SaveBinaryToFile fs t b name)) n = f_files fs n.
Proof.
  intros fs t b name n N. assert (NB : beq n name = false) by (destruct (beq n name) eqn:B; [apply beq_eq in B; contradiction|reflexivity]).
  unfold SaveBinaryToFile, open_file, f_write. destruct t; try reflexivity;
    (destruct (f_allowed fs name); [|reflexivity]; destruct (f_files fs name); cbn; rewrite ?NB; try reflexivity; destruct b; cbn; rewrite ?NB; reflexivity).
Qed.
Print Assumptions C56_other_files.
Example C56_nonvacuous : f_files fs1 (bs "old") = Some (bs "x") /\ f_allowed fs1 (bs "old") = true /\ payload TBinary (bs "data") <> [] /\
  f_files (fst (SaveBinaryToFile fs1 TBinary (bs "data") (bs "old"))) (bs "old") = Some [].
Proof. do 2 (split; [reflexivity|]). split; [discriminate|]. vm_compute. reflexivity. Qed.
