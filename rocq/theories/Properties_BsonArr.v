(** Property C98: arrays at the top of a BSON text. *)
From Coq Require Import String.
From Verif Require Import Base Values Tactics Env0 BsonModel BsonSpec BsonThms BsonRound BsonEncode Env0Thms HeapModel MsgLoadModel ReflectModel BsonLoadModel HeapSpec HeapBase HeapConf
  HeapGet HeapCalls HeapClone HeapBuild MsgLoadThms BsonLoadThms BsonLoadArr EncodeRound HeapView Properties_Map Properties_Heap Properties_Clone Properties_Merge Properties_MsgLoad
  Properties_Reflect Properties_BsonLoad.

(** What Value2Bson writes for a plain array. *)
Lemma array_text E vs out : bplain E (VArray vs) -> Value2Bson E (VArray vs) [] = Ok out ->
  exists ms, out = payload (BArr ms) /\ bwf (BArr ms) /\ readable E (BArr ms) /\ dates_ok (BArr ms) /\ map (btree E) ms = vs.
Proof.
  intros Hp Ho. destruct (bplain_doc E _ Hp) as (m & Hd & Hw & Hr & Hdo & Ht).
  pose proof (Value2Bson_conforms E (VArray vs) m [] I Hd) as H0. rewrite Ho in H0. injection H0 as ->.
  cbn [doc_of] in Hd. destruct (opt_all _) as [ms|]; [|discriminate]. cbn [option_map] in Hd. injection Hd as <-.
  exists ms. cbn [btree] in Ht. injection Ht as Ht. auto 6.
Qed.
(** An array written with Value2Bson and loaded into an array, in any state of the memory, is the same array again. *)
Theorem C98_load : forall E G s s1 l vs out rest, wf s -> Clear s l = Ok s1 -> live s1 l -> (5 <= l)%nat -> c_dt (hp s l) = TArray ->
  index_parser_ok E -> bplain E (VArray vs) -> Value2Bson E (VArray vs) [] = Ok out -> zlen out < 2 ^ 32 -> bytes_ok rest ->
  exists s', h_LoadFromBson E G s l (out ++ rest) = Ok (s', None) /\ wf s' /\ rep (hp s') (Some l) (VArray vs).
Proof.
  intros E G s s1 l vs out rest W CL L L5 D Hx Hp Ho Hz B. destruct (array_text E vs out Hp Ho) as (ms & -> & Hw & Hr & Hdo & Ht).
  destruct (load_barr E G s s1 l ms rest W CL L L5 D Hx Hw Hr Hdo Hz) as (s' & A1 & A2 & A3 & _).
  - apply Forall_app. split; [exact (payload_bytes _ Hw)|exact B].
  - cbn [btree] in A3. rewrite Ht in A3. eauto.
Qed.
Print Assumptions C98_load.
(** The same for every conforming array, written by whatever program; nothing outside the receiver changes. *)
Theorem C98_conforming : forall E G s s1 l xs rest, wf s -> Clear s l = Ok s1 -> live s1 l -> (5 <= l)%nat -> c_dt (hp s l) = TArray ->
  index_parser_ok E -> bwf (BArr xs) -> readable E (BArr xs) -> dates_ok (BArr xs) -> zlen (payload (BArr xs)) < 2 ^ 32 -> bytes_ok rest ->
  exists s', h_LoadFromBson E G s l (payload (BArr xs) ++ rest) = Ok (s', None) /\ wf s' /\ rep (hp s') (Some l) (btree E (BArr xs)) /\
    (forall x, live s1 x -> x <> l -> hp s' x = hp s1 x).
Proof.
  intros E G s s1 l xs rest W CL L L5 D Hx Hw Hr Hdo Hz B. destruct (load_barr E G s s1 l xs rest W CL L L5 D Hx Hw Hr Hdo Hz) as (s' & A1 & A2 & A3 & A4).
  - apply Forall_app. split; [exact (payload_bytes _ Hw)|exact B].
  - exists s'. split; [exact A1|]. split; [exact A2|]. split; [exact A3|]. apply A4.
Qed.
Print Assumptions C98_conforming.

(** Everywhere else the array comes back as an object whose names are the indices. *)
Lemma number_map {A B} (f : A -> B) (l : list A) : forall i, number i (map f l) = map (fun kv => (fst kv, f (snd kv))) (number i l).
Proof. induction l as [|x l IH]; intros i; cbn [map number]; [reflexivity|]. rewrite IH. reflexivity. Qed.
Lemma apart_map {A B} E (f : A -> B) (l : list (bytes * A)) : names_apart E (map (fun kv => (fst kv, f (snd kv))) l) -> names_apart E l.
Proof.
  unfold names_apart. induction l as [|x l IH]; intros H; [constructor|]. cbn [map] in H. inversion H as [|? ? F R]; subst. constructor; [|auto].
  rewrite Forall_map in F. exact F.
Qed.
Lemma number_fold {A} (P : A -> Prop) (l : list A) : forall i, 0 <= i -> fold_right (fun x Q => P x /\ Q) True l ->
  fold_right (fun kv Q => (bytes_ok (fst kv) /\ no_nul (fst kv)) /\ P (snd kv) /\ Q) True (number i l) /\
  fold_right (fun kv Q => P (snd kv) /\ Q) True (number i l).
Proof.
  induction l as [|x l IH]; intros i I0 H; [split; exact I|]. cbn [number fold_right fst snd] in *. destruct H as [H1 H2].
  destruct (IH (i + 1) ltac:(lia) H2) as [K1 K2]. split; [|auto]. split; [split; [apply fmt_int_ok|apply fmt_int_no_nul; auto]|auto].
Qed.
Theorem C98_new_refuted : forall E vs out rest, index_parser_ok E -> bplain E (VArray vs) -> names_apart E (number 0 vs) ->
  Value2Bson E (VArray vs) [] = Ok out -> zlen out < 2 ^ 32 ->
  NewValueFromBson E (out ++ rest) = Ok (VObject true (number 0 vs)).
Proof.
  intros E vs out rest Hx Hp NA Ho Hz. destruct (array_text E vs out Hp Ho) as (ms & -> & Hw & Hr & Hdo & <-).
  rewrite payload_arr in *. rewrite <- payload_doc in *. rewrite number_map in *.
  apply (decode_doc E (number 0 ms) rest Hx); auto.
  - exact (proj1 (number_fold bwf ms 0 ltac:(lia) Hw)).
  - cbn [readable] in *. destruct Hr as [NE Hr]. split; [destruct ms; [congruence|discriminate]|].
    split; [exact (apart_map _ _ _ NA)|exact (proj2 (number_fold (readable E) ms 0 ltac:(lia) Hr))].
  - exact (proj2 (number_fold dates_ok ms 0 ltac:(lia) Hdo)).
Qed.
Print Assumptions C98_new_refuted.
Theorem C98_object_refuted : forall E G s s1 l vs out rest, wf s -> Clear s l = Ok s1 -> live s1 l -> (5 <= l)%nat -> c_dt (hp s l) = TObject ->
  index_parser_ok E -> bplain E (VArray vs) -> names_apart E (number 0 vs) -> Value2Bson E (VArray vs) [] = Ok out -> zlen out < 2 ^ 32 -> bytes_ok rest ->
  exists s', h_LoadFromBson E G s l (out ++ rest) = Ok (s', None) /\ wf s' /\ rep (hp s') (Some l) (VObject true (number 0 vs)).
Proof.
  intros E G s s1 l vs out rest W CL L L5 D Hx Hp NA Ho Hz B. destruct (array_text E vs out Hp Ho) as (ms & Q & Hw & _).
  apply (C69_content E G s s1 l (out ++ rest) _ W CL L L5); auto.
  - apply Forall_app. split; [subst out; exact (payload_bytes _ Hw)|exact B].
  - exact (C98_new_refuted E vs out rest Hx Hp NA Ho Hz).
Qed.
Print Assumptions C98_object_refuted.

Definition top_array : value := VArray [VInt 0 5; VArray [VTrue; VString (bs "x")]; VObject true [(bs "k", VNull)]].
Definition top_text : bytes := match Value2Bson e1 top_array [] with Ok b => b | _ => [] end.
Example C98_case : exists s1, index_parser_ok e1 /\ wf arr_st /\ Clear arr_st 5 = Ok s1 /\ live s1 5 /\ c_dt (hp arr_st 5) = TArray /\ Value2Bson e1 top_array [] = Ok top_text /\
  bplain e1 top_array /\ zlen top_text < 2 ^ 32 /\
  ok_map (fun r => view 4 (hp (fst r)) (Some 5%nat)) (h_LoadFromBson e1 g0 arr_st 5 top_text) = Some (Some top_array) /\
  NewValueFromBson e1 top_text = Ok (VObject true [(bs "0", VInt 0 5); (bs "1", VArray [VTrue; VString (bs "x")]); (bs "2", VObject true [(bs "k", VNull)])]).
Proof.
  destruct (ok_ex (fun s => live_b s 5) (Clear arr_st 5) true) as (s1 & Q1 & Q2); [vm_compute; reflexivity|].
  exists s1. split; [exact (env0_index true)|]. split; [exact arr_wf|]. split; [exact Q1|]. split; [apply live_of; exact Q2|]. split; [vm_compute; reflexivity|].
  split; [vm_compute; reflexivity|]. split; [|split; [vm_compute; reflexivity|split; vm_compute; reflexivity]].
  cbn [top_array bplain fold_right fst snd]. unfold i64_ok, names_apart, no_nul.
  repeat match goal with
  | |- _ /\ _ => split
  | |- True => exact I
  | |- _ <> [] => discriminate
  | |- bytes_ok _ => apply bytes_okb; vm_compute; reflexivity
  | |- ForallOrdPairs _ _ => repeat constructor
  | |- _ \/ _ => left
  end; try lia; cbv; intuition discriminate.
Qed.

(** A document whose members are named 0, 1, ... up to one whose name is no number, loaded into an array: the members in front of that name are lost,
    and the call reports success.  NewValueFromBson keeps them all. *)
Theorem C98_mixed_refuted : forall E G s s1 l ms k m kvs rest, let doc := number 0 ms ++ (k, m) :: kvs in
  wf s -> Clear s l = Ok s1 -> live s1 l -> (5 <= l)%nat -> c_dt (hp s l) = TArray -> index_parser_ok E -> x_str2int E k (-1) = -1 ->
  bwf (BDoc doc) -> readable E (BDoc doc) -> dates_ok (BDoc doc) -> zlen (payload (BDoc doc)) < 2 ^ 32 -> bytes_ok rest ->
  NewValueFromBson E (payload (BDoc doc) ++ rest) = Ok (btree E (BDoc doc)) /\
  exists s', h_LoadFromBson E G s l (payload (BDoc doc) ++ rest) = Ok (s', None) /\ wf s' /\ rep (hp s') (Some l) (btree E (BDoc ((k, m) :: kvs))).
Proof.
  intros E G s s1 l ms k m kvs rest doc W CL L L5 D Hx KW Hw Hr Hd Hz B. split.
  - apply decode_doc; auto.
  - apply (load_mixed E G s s1); auto. apply Forall_app. split; [exact (payload_bytes _ Hw)|exact B].
Qed.
Print Assumptions C98_mixed_refuted.
Definition mixed : list (bytes * bval) := number 0 [BInt64 7; BStr (bs "x")] ++ (bs "k", BBool true) :: [(bs "1x", BNull)].
Example C98_mixed_case : exists s1, wf arr_st /\ Clear arr_st 5 = Ok s1 /\ live s1 5 /\ x_str2int e1 (bs "k") (-1) = -1 /\
  bwf (BDoc mixed) /\ readable e1 (BDoc mixed) /\ dates_ok (BDoc mixed) /\ zlen (payload (BDoc mixed)) < 2 ^ 32 /\
  ok_map (fun r => view 4 (hp (fst r)) (Some 5%nat)) (h_LoadFromBson e1 g0 arr_st 5 (payload (BDoc mixed))) = Some (Some (VObject true [(bs "k", VTrue); (bs "1x", VNull)])).
Proof.
  destruct (ok_ex (fun s => live_b s 5) (Clear arr_st 5) true) as (s1 & Q1 & Q2); [vm_compute; reflexivity|].
  exists s1. split; [exact arr_wf|]. split; [exact Q1|]. split; [apply live_of; exact Q2|]. split; [vm_compute; reflexivity|].
  split; [|split; [|split; [|split; vm_compute; reflexivity]]]; cbn -[bytes_ok no_nul]; unfold names_apart, no_nul, i64_ok.
  all: repeat match goal with
  | |- _ /\ _ => split
  | |- True => exact I
  | |- _ <> [] => discriminate
  | |- bytes_ok _ => apply bytes_okb; vm_compute; reflexivity
  | |- ForallOrdPairs _ _ => repeat constructor
  end; try (vm_compute; reflexivity); try lia; cbv; intuition discriminate.
Qed.
