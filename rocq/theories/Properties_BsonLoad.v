(** Properties C68 and C69: BSON decoded into memory that held something before. *)
From Coq Require Import String.
From Verif Require Import Base Values Tactics Env0 BsonModel BsonSpec BsonThms HeapModel MsgLoadModel ReflectModel BsonLoadModel HeapSpec HeapBase HeapConf
  HeapGet HeapCalls HeapClone HeapBuild MsgLoadThms BsonLoadThms HeapView Properties_Map Properties_Heap Properties_Clone Properties_Merge Properties_MsgLoad Properties_Reflect.

(** ** C68 *)
(** [NewValueFromBson] in any state of the memory, with no cache, a new one or any pooled one: it succeeds
    exactly when the decoder of C11-C17 does, and then the cells it returns read as that decoder's value.
    They are new or recycled, never in use, and no cell in use changes. *)
Theorem C68_content : forall E G s uc b v, wf s -> bytes_ok b -> NewValueFromBson E b = Ok v ->
  exists s' r, h_NewValueFromBson E G s uc b = Ok (s', inr (Some r)) /\ wf s' /\ rep (hp s') (Some r) v /\
    (forall x, live s x -> hp s' x = hp s x /\ live s' x) /\
    (forall x, reach (hp s') r x -> (x < 5)%nat \/ ((5 <= x)%nat /\ ~ live s x /\ live s' x)).
Proof.
  intros E G s uc b v W B Q. pose proof (new_bson E G s uc b W B) as H. cbv zeta in H. rewrite Q in H. destruct H as (s' & r & H & K & _).
  destruct (cache_of_same G s uc W) as (HP & LV & _ & W1 & OC).
  exists s', r. split; [exact H|]. split; [apply (k_tr _ _ _ _ _ K none_set none_set W1 OC)|]. split; [apply (k_rep _ _ _ _ _ K)|]. split.
  - intros x L. split; [rewrite <- HP; apply (k_frame _ _ _ _ _ K); auto|apply (k_lives _ _ _ _ _ K); auto].
  - intros x R. destruct (k_new _ _ _ _ _ K x R) as [A|(A & A2 & A3)]; [auto|]. right. split; [auto|]. split; [|auto].
    intros L. apply A2, LV, L.
Qed.
Print Assumptions C68_content.
(** When that decoder fails, so does the call, with the same error, and no cell in use changes; when it
    panics, so does the call; it always ends. *)
Theorem C68_failure : forall E G s uc b, wf s -> bytes_ok b ->
  match NewValueFromBson E b with
  | Ok _ => True
  | Err e => exists s', h_NewValueFromBson E G s uc b = Ok (s', inl e) /\ wf s' /\ forall x, live s x -> hp s' x = hp s x /\ live s' x
  | Panic => h_NewValueFromBson E G s uc b = Panic
  | OutOfFuel => False
  end.
Proof.
  intros E G s uc b W B. pose proof (new_bson E G s uc b W B) as H. cbv zeta in H. pose proof (bson_total E b B) as T.
  destruct (cache_of_same G s uc W) as (HP & LV & _).
  destruct (NewValueFromBson E b) as [v|e| |]; auto.
  destruct H as (s' & H & W' & K). exists s'. split; [exact H|]. split; [exact W'|]. intros x L. rewrite <- HP. auto.
Qed.
Print Assumptions C68_failure.
(** Without a cache, or in a new one: no later call on other values changes what was decoded. *)
Theorem C68_confined : forall E G s uc b v, wf s -> bytes_ok b -> (uc = None \/ uc = Some None) -> NewValueFromBson E b = Ok v ->
  exists s' r, h_NewValueFromBson E G s uc b = Ok (s', inr (Some r)) /\
    (forall x, reach (hp s') r x -> (x < 5)%nat \/ made (nx s) (nx s') x) /\
    forall os s'', runs E G (made (nx s) (nx s')) s' os s'' -> rep (hp s'') (Some r) v.
Proof.
  intros E G s uc b v W B UC Q. pose proof (new_bson E G s uc b W B) as H. cbv zeta in H. rewrite Q in H. destruct H as (s' & r & H & K & _).
  exists s', r. split; [exact H|]. destruct (fresh_confined E G s uc v r s' W UC K) as (_ & A & A2). auto.
Qed.
Print Assumptions C68_confined.

(** [{"a":[1,"x"],"d":{"k":true}}], read into a cache that held an integer before. *)
Definition bson_tree : value :=
  VObject true [(bs "a", VArray [VInt 0 1; VString (bs "x")]); (bs "d", VObject true [(bs "k", VTrue)])].
Definition bson_doc : bytes := match Value2Bson e1 bson_tree [] with Ok b => b | _ => [] end.
Lemma bytes_okb b : forallb (fun x => (0 <=? x) && (x <? 256)) b = true -> bytes_ok b.
Proof.
  intros H. apply Forall_forall. intros x X. eapply forallb_forall in H; [|exact X].
  apply andb_prop in H as [A B]. apply Z.leb_le in A. apply Z.ltb_lt in B. unfold byte_ok. lia.
Qed.
Example C68_case : wf recycled_st /\ bytes_ok bson_doc /\ NewValueFromBson e1 bson_doc = Ok bson_tree /\
  ok_map (fun r => match snd r with inr p => view 4 (hp (fst r)) p | _ => None end)
    (h_NewValueFromBson e1 g0 recycled_st (Some (Some 0%nat)) bson_doc) = Some (Some bson_tree) /\
  (exists e, NewValueFromBson e1 (bs "abc") = Err e) /\ NewValueFromBson e1 [9;0;0;0;2;97;0;1;0;0] = Panic.
Proof.
  split; [exact recycled_wf|]. split; [apply bytes_okb; vm_compute; reflexivity|]. split; [vm_compute; reflexivity|].
  split; [vm_compute; reflexivity|]. split; [eexists|]; vm_compute; reflexivity.
Qed.

(** ** C69 *)
(** [LoadFromBson] of a non-empty text into an object, in any state of the memory: it succeeds exactly when
    [NewValueFromBson] does, and then the receiver reads as the same value.  Nothing the receiver held before
    shows. *)
Theorem C69_content : forall E G s s1 l b v, wf s -> Clear s l = Ok s1 -> live s1 l -> (5 <= l)%nat -> bytes_ok b ->
  c_dt (hp s l) = TObject -> NewValueFromBson E b = Ok v ->
  exists s', h_LoadFromBson E G s l b = Ok (s', None) /\ wf s' /\ rep (hp s') (Some l) v.
Proof.
  intros E G s s1 l b v W CL L L5 B D Q. assert (NB : b <> []) by (intros ->; discriminate).
  pose proof (load_obj E G s s1 l b W CL L L5 B NB D) as H. rewrite Q in H. destruct H as (s' & A & A2 & A3 & _). eauto.
Qed.
Print Assumptions C69_content.
(** A receiver that is no object gives the same, an array provided the first name is no number, unless the text decodes to an object without pairs: then
    it keeps its type and is only cleared. *)
Theorem C69_other : forall E G s s1 l b v, wf s -> Clear s l = Ok s1 -> live s1 l -> (5 <= l)%nat -> bytes_ok b ->
  c_dt (hp s l) <> TObject -> (c_dt (hp s l) = TArray -> first_word E b) -> NewValueFromBson E b = Ok v ->
  exists s', h_LoadFromBson E G s l b = Ok (s', None) /\ wf s' /\
    (rep (hp s') (Some l) v \/ v = VObject false [] /\ s' = s1).
Proof.
  intros E G s s1 l b v W CL L L5 B D1 D2 Q. assert (NB : b <> []) by (intros ->; discriminate).
  destruct (load_other E G s s1 l b W CL L L5 B NB D1 D2) as [H|[[Q2 H]|(e & Q2 & H)]].
  - rewrite Q in H. destruct H as (s' & A & A2 & A3 & _). eauto.
  - exists s1. split; [exact H|]. split; [exact (clear_live_wf s s1 l W CL L)|]. right. split; [congruence|reflexivity].
  - congruence.
Qed.
Print Assumptions C69_other.
(** Errors are those of [NewValueFromBson], except that an empty text is no error here and clears the
    receiver.  After an error the memory is still in order and the receiver is a tree. *)
Theorem C69_failure : forall E G s s1 l b e, wf s -> Clear s l = Ok s1 -> live s1 l -> (5 <= l)%nat -> bytes_ok b ->
  (c_dt (hp s l) = TArray -> first_word E b) -> NewValueFromBson E b = Err e ->
  exists s', wf s' /\ h_LoadFromBson E G s l b = Ok (s', if (List.length b =? 0)%nat then None else Some e) /\
    (b = [] -> s' = s1) /\ (c_dt (hp s l) = TObject -> b <> [] -> exists v, rep (hp s') (Some l) v).
Proof.
  intros E G s s1 l b e W CL L L5 B D Q. pose proof (clear_live_wf s s1 l W CL L) as W1. destruct b as [|b0 b].
  - exists s1. split; [exact W1|]. unfold h_LoadFromBson. rewrite CL. cbn [bind List.length]. split; [reflexivity|]. split; [auto|]. congruence.
  - set (b' := b0 :: b) in *. assert (NB : b' <> []) by discriminate. change (List.length b' =? 0)%nat with false. cbv iota.
    destruct (vt_eqb (c_dt (hp s l)) TObject) eqn:T.
    + apply HeapBase.vt_eqb_eq in T. pose proof (load_obj E G s s1 l b' W CL L L5 B NB T) as H. rewrite Q in H.
      destruct H as (s' & v & A & A2 & A3 & _). exists s'. split; [exact A2|]. split; [exact A|]. split; [congruence|]. eauto.
    + assert (T' : c_dt (hp s l) <> TObject) by (intros X; rewrite X in T; discriminate).
      destruct (load_other E G s s1 l b' W CL L L5 B NB T' D) as [H|[[Q2 H]|(e' & Q2 & H)]].
      * rewrite Q in H. destruct H as (s' & v & A & A2 & A3 & _). exists s'. split; [exact A2|]. split; [exact A|]. split; [congruence|]. eauto.
      * congruence.
      * exists s1. split; [exact W1|]. rewrite H. split; [congruence|]. split; [congruence|]. congruence.
Qed.
Print Assumptions C69_failure.
(** It panics only where [NewValueFromBson] does, once [Clear] went through. *)
Theorem C69_panic : forall E G s s1 l b, wf s -> Clear s l = Ok s1 -> live s1 l -> (5 <= l)%nat -> bytes_ok b ->
  (c_dt (hp s l) = TArray -> first_word E b) -> (h_LoadFromBson E G s l b = Panic <-> NewValueFromBson E b = Panic).
Proof.
  intros E G s s1 l b W CL L L5 B D. destruct (NewValueFromBson E b) as [v|e| |] eqn:Q.
  - destruct (vt_eqb (c_dt (hp s l)) TObject) eqn:T.
    + apply HeapBase.vt_eqb_eq in T. destruct (C69_content E G s s1 l b v W CL L L5 B T Q) as (s' & A & _). rewrite A. split; discriminate.
    + assert (T' : c_dt (hp s l) <> TObject) by (intros X; rewrite X in T; discriminate).
      destruct (C69_other E G s s1 l b v W CL L L5 B T' D Q) as (s' & A & _). rewrite A. split; discriminate.
  - destruct (C69_failure E G s s1 l b e W CL L L5 B D Q) as (s' & _ & A & _). rewrite A. split; discriminate.
  - assert (NB : b <> []) by (intros ->; discriminate). split; [auto|]. intros _.
    destruct (vt_eqb (c_dt (hp s l)) TObject) eqn:T.
    + apply HeapBase.vt_eqb_eq in T. pose proof (load_obj E G s s1 l b W CL L L5 B NB T) as H. rewrite Q in H. exact H.
    + assert (T' : c_dt (hp s l) <> TObject) by (intros X; rewrite X in T; discriminate).
      destruct (load_other E G s s1 l b W CL L L5 B NB T' D) as [H|[[Q2 H]|(e & Q2 & H)]]; [rewrite Q in H; exact H|congruence|congruence].
  - exfalso. exact (bson_total E b B Q).
Qed.
Print Assumptions C69_panic.

(** The object [{"a":7,"b":true}] as a receiver; its member [b], a boolean, as another. *)
Example C69_case : exists s1, wf recv_st /\ Clear recv_st 5 = Ok s1 /\ live s1 5 /\
  view 3 (hp recv_st) (Some 5%nat) = Some (VObject true [(bs "a", VInt 0 7); (bs "b", VTrue)]) /\
  c_dt (hp recv_st 5) = TObject /\ bytes_ok bson_doc /\ NewValueFromBson e1 bson_doc = Ok bson_tree /\
  ok_map (fun r => view 4 (hp (fst r)) (Some 5%nat)) (h_LoadFromBson e1 g0 recv_st 5 bson_doc) = Some (Some bson_tree) /\
  ok_map snd (h_LoadFromBson e1 g0 recv_st 5 (bs "abc")) = Some (Some ErrBadBSONDocLen).
Proof.
  destruct (ok_ex (fun s => live_b s 5) (Clear recv_st 5) true) as (s1 & Q1 & Q2); [vm_compute; reflexivity|].
  exists s1. split; [exact recv_wf|]. split; [exact Q1|]. split; [apply live_of; exact Q2|]. split; [vm_compute; reflexivity|].
  split; [vm_compute; reflexivity|]. split; [apply bytes_okb; vm_compute; reflexivity|]. repeat split; vm_compute; reflexivity.
Qed.
(** An integer as receiver: cell 6 of the same memory. *)
Example C69_other_case : exists s1, Clear recv_st 6 = Ok s1 /\ live s1 6 /\ c_dt (hp recv_st 6) = TInt /\
  ok_map (fun r => view 4 (hp (fst r)) (Some 6%nat)) (h_LoadFromBson e1 g0 recv_st 6 bson_doc) = Some (Some bson_tree) /\
  NewValueFromBson e1 [4;0;0;0;0] = Ok (VObject false []) /\
  ok_map (fun r => view 4 (hp (fst r)) (Some 6%nat)) (h_LoadFromBson e1 g0 recv_st 6 [4;0;0;0;0]) = Some (Some (VInt 0 7)).
Proof.
  destruct (ok_ex (fun s => live_b s 6) (Clear recv_st 6) true) as (s1 & Q1 & Q2); [vm_compute; reflexivity|].
  exists s1. split; [exact Q1|]. split; [apply live_of; exact Q2|]. repeat split; vm_compute; reflexivity.
Qed.

(** The array [[1,2]] as receiver of [{"a":7,"0":8}]. *)
Definition word_tree : value := VObject true [(bs "a", VInt 0 7); (bs "0", VInt 0 8)].
Definition word_doc : bytes := match Value2Bson e1 word_tree [] with Ok b => b | _ => [] end.
Example C69_array_case : exists s1, wf arr_st /\ Clear arr_st 5 = Ok s1 /\ live s1 5 /\ c_dt (hp arr_st 5) = TArray /\ first_word e1 word_doc /\
  bytes_ok word_doc /\ NewValueFromBson e1 word_doc = Ok word_tree /\
  ok_map (fun r => view 4 (hp (fst r)) (Some 5%nat)) (h_LoadFromBson e1 g0 arr_st 5 word_doc) = Some (Some word_tree).
Proof.
  destruct (ok_ex (fun s => live_b s 5) (Clear arr_st 5) true) as (s1 & Q1 & Q2); [vm_compute; reflexivity|].
  exists s1. split; [exact arr_wf|]. split; [exact Q1|]. split; [apply live_of; exact Q2|]. split; [vm_compute; reflexivity|].
  split; [intros n X; vm_compute in X; injection X as <-; vm_compute; reflexivity|].
  split; [apply bytes_okb; vm_compute; reflexivity|]. split; vm_compute; reflexivity.
Qed.
(** An array as receiver is not replaced when the first name is a number: members with numeric names become its elements, so the document
    [{"0":7}] loads as [[7]]. *)
Definition num_doc : bytes := match Value2Bson e1 (VObject true [(bs "0", VInt 0 7)]) [] with Ok b => b | _ => [] end.
Theorem C69_array_refuted : exists s1 s', wf arr_st /\ Clear arr_st 5 = Ok s1 /\ live s1 5 /\ bytes_ok num_doc /\
  rep (hp arr_st) (Some 5%nat) (VArray [VInt 0 1; VInt 0 2]) /\
  NewValueFromBson e1 num_doc = Ok (VObject true [(bs "0", VInt 0 7)]) /\
  h_LoadFromBson e1 g0 arr_st 5 num_doc = Ok (s', None) /\ rep (hp s') (Some 5%nat) (VArray [VInt 0 7]).
Proof.
  destruct (ok_ex (fun s => live_b s 5) (Clear arr_st 5) true) as (s1 & Q1 & Q2); [vm_compute; reflexivity|].
  destruct (ok_ex (fun r => (snd r, view 3 (hp (fst r)) (Some 5%nat))) (h_LoadFromBson e1 g0 arr_st 5 num_doc)
    (None, Some (VArray [VInt 0 7]))) as ([s' e] & Q3 & Q4); [vm_compute; reflexivity|].
  cbn [fst snd] in Q4. apply pair_equal_spec in Q4 as [-> V].
  exists s1, s'. split; [exact arr_wf|]. split; [exact Q1|]. split; [apply live_of; exact Q2|]. split; [apply bytes_okb; vm_compute; reflexivity|].
  split; [apply (view_rep 3); vm_compute; reflexivity|]. split; [vm_compute; reflexivity|]. split; [exact Q3|exact (view_rep _ _ _ _ V)].
Qed.
Print Assumptions C69_array_refuted.
