(** Properties C10 and C61: MessagePack decoded into memory that held something before. *)
From Coq Require Import String.
From Verif Require Import Base Values Tactics Env0 MsgPackModel MsgPackFuel HeapModel MsgLoadModel HeapSpec MsgLoadSpec HeapBase HeapConf
  HeapGet HeapCalls HeapClone HeapBuild MsgLoadThms MsgLoadArr HeapView Properties_MsgPack Properties_Map Properties_Heap Properties_Clone Properties_Merge.

(** ** C61 *)
(** [NewValueFromMsgPack] in any state of the memory, with no cache, a new one or any pooled one: it
    succeeds exactly when the decoder of C01-C05 does, and then the cells it returns read as the
    decoder's value.  They are new or recycled, never in use, and no cell in use changes. *)
Theorem C61_content : forall E G s uc b v, wf s -> bytes_ok b -> NewValueFromMsgPack E b = Ok v ->
  exists s' p, h_NewValueFromMsgPack E G s uc b = Ok (s', inr p) /\ wf s' /\ shows (hp s') p v /\
    (forall x, live s x -> hp s' x = hp s x /\ live s' x) /\
    (forall r x, p = Some r -> reach (hp s') r x -> (x < 5)%nat \/ ((5 <= x)%nat /\ ~ live s x /\ live s' x)).
Proof.
  intros E G s uc b v W BB Q. pose proof (new_msg E G s uc b W BB) as H. rewrite Q in H. destruct H as (s' & p & H & D).
  exists s', p. split; [exact H|]. split; [apply (tr_NewMsg none_set none_set E G s uc b s' (inr p) W H)|].
  destruct (cache_of_same G s uc W) as (HP & LV & LV' & W1 & OC). split; [|split].
  - destruct p as [r|]; [|destruct D as [-> _]; exists VNilP; split; [constructor|reflexivity]].
    destruct D as (w & L & K). exists w. split; [apply (k_rep _ _ _ _ _ K)|exact L].
  - intros x L. destruct (decoded_frame _ _ _ _ _ x D (LV x L)) as [A B]. rewrite HP in A. auto.
  - intros r x -> R. destruct D as (w & _ & K). destruct (k_new _ _ _ _ _ K x R) as [A|(A & B & C)]; [auto|].
    right. split; [auto|split; [|auto]]. intros L. apply B, LV, L.
Qed.
Print Assumptions C61_content.
(** When the decoder fails or panics, so does the call. *)
Theorem C61_failure : forall E G s uc b, wf s -> bytes_ok b ->
  match NewValueFromMsgPack E b with
  | Ok _ => True
  | Err e => exists s', h_NewValueFromMsgPack E G s uc b = Ok (s', inl e) /\ wf s'
  | Panic => h_NewValueFromMsgPack E G s uc b = Panic
  | OutOfFuel => False
  end.
Proof.
  intros E G s uc b W BB. pose proof (new_msg E G s uc b W BB) as H.
  destruct (NewValueFromMsgPack E b) as [v|e| |] eqn:Q; auto.
  - destruct H as (s' & H). exists s'. split; [exact H|]. apply (tr_NewMsg none_set none_set E G s uc b s' (inl e) W H).
  - unfold NewValueFromMsgPack, mp_decode in Q.
    pose proof (proj1 (mp_enough E (mp_fuel b)) b) as NF. unfold mp_fuel in NF, Q.
    destruct (mp_value E (2 * List.length b + 3) b) as [[? ?]| | |]; try discriminate. apply NF; [lia|reflexivity].
Qed.
Print Assumptions C61_failure.
(** Without a cache, or in a new one: no later call on other values changes what was decoded. *)
Theorem C61_confined : forall E G s uc b v, wf s -> bytes_ok b -> (uc = None \/ uc = Some None) -> NewValueFromMsgPack E b = Ok v ->
  exists s' p, h_NewValueFromMsgPack E G s uc b = Ok (s', inr p) /\
    (forall r x, p = Some r -> reach (hp s') r x -> (x < 5)%nat \/ made (nx s) (nx s') x) /\
    forall os s'', runs E G (made (nx s) (nx s')) s' os s'' -> shows (hp s'') p v.
Proof.
  intros E G s uc b v W BB UC Q. pose proof (new_msg E G s uc b W BB) as H. rewrite Q in H. destruct H as (s' & p & H & D).
  exists s', p. split; [exact H|]. destruct p as [r|].
  - destruct D as (w & L & K). destruct (fresh_confined E G s uc w r s' W UC K) as (_ & A & B). split.
    + intros r0 x X. injection X as <-. apply A.
    + intros os s'' R. exists w. split; [eapply B; exact R|exact L].
  - destruct D as [-> _]. split; [intros r x X; discriminate|]. intros os s'' _. exists VNilP. split; [constructor|reflexivity].
Qed.
Print Assumptions C61_confined.

(** [{"a":[1,2.5f,nil]}] decoded into a cache that held an integer before. *)
Definition recycled_ops : list op :=
  [OFromMsg (Some None) [211;255;255;255;255;255;255;255;255]; OFree (Some 5%nat)].
Definition recycled_st : st := st_of e1 g0 recycled_ops.
Lemma recycled_wf : wf recycled_st.
Proof. apply st_of_wf; vm_compute; reflexivity. Qed.
Definition nested_msg : bytes := [129;161;97;147;1;202;64;32;0;0;192].
Example C61_case : wf recycled_st /\ bytes_ok nested_msg /\
  NewValueFromMsgPack e1 nested_msg = Ok (VObject true [(bs "a", VArray [VInt 0 1; VFloat 1075838976; VNull])]) /\
  ok_map (fun r => match snd r with inr p => view 4 (hp (fst r)) p | _ => None end)
    (h_NewValueFromMsgPack e1 g0 recycled_st (Some (Some 0%nat)) nested_msg)
  = Some (Some (VObject true [(bs "a", VArray [VInt 0 1; VFloat 1075838976; VNull])])).
Proof.
  split; [exact recycled_wf|]. split; [repeat constructor; cbv; intuition discriminate|].
  split; vm_compute; reflexivity.
Qed.

(** The upper half of a float32's slot is not written: the same message decoded into recycled memory
    and into new memory gives values that [Equal] tells apart. *)
Definition one_msg : bytes := [202;63;128;0;0].
Theorem C61_float_refuted : exists s1 s2 s3 p q, wf recycled_st /\
  h_NewValueFromMsgPack e1 g0 recycled_st (Some (Some 0%nat)) one_msg = Ok (s1, inr p) /\
  h_NewValueFromMsgPack e1 g0 s1 None one_msg = Ok (s2, inr q) /\
  Equal e1 9 s2 p q = Ok (false, s3).
Proof.
  destruct (ok_ex (fun x : st * (gerr + ptr) * (st * (gerr + ptr)) * (bool * st) => (snd (fst (fst x)), snd (snd (fst x)), fst (snd x)))
   (do r1 <- h_NewValueFromMsgPack e1 g0 recycled_st (Some (Some 0%nat)) one_msg;
    do r2 <- h_NewValueFromMsgPack e1 g0 (fst r1) None one_msg;
    do r3 <- Equal e1 9 (fst r2) (match snd r1 with inr p => p | _ => None end) (match snd r2 with inr p => p | _ => None end);
    Ok (r1, r2, r3)) (inr (Some 5%nat), inr (Some 13%nat), false)) as ([[r1 r2] r3] & Q1 & Q2); [vm_compute; reflexivity|].
  apply bind_ok in Q1 as (a1 & A1 & Q1). apply bind_ok in Q1 as (a2 & A2 & Q1). apply bind_ok in Q1 as (a3 & A3 & Q1).
  injection Q1 as -> -> ->. cbn [fst snd] in Q2. apply pair_equal_spec in Q2 as [Q2 Q3]. apply pair_equal_spec in Q2 as [Q1 Q2].
  destruct r1 as [s1 x1], r2 as [s2 x2], r3 as [b3 s3]. cbn [fst snd] in *. subst.
  exists s1, s2, s3, (Some 5%nat), (Some 13%nat). split; [exact recycled_wf|]. auto.
Qed.
Print Assumptions C61_float_refuted.

(** ** C10 *)
(** [LoadFromMsgPack] into any value succeeds, fails or panics as [NewValueFromMsgPack] does, except
    that the empty message is no error.  [Clear] panics only for a value whose cache is empty. *)
Theorem C10_outcome : forall E G s s1 l b, wf s -> (l < nx s)%nat -> bytes_ok b -> b <> [] -> Clear s l = Ok s1 ->
  match NewValueFromMsgPack E b with
  | Ok _ => exists s', LoadFromMsgPack E G s l b = Ok (s', None) /\ wf s'
  | Err e => exists s', LoadFromMsgPack E G s l b = Ok (s', Some e) /\ wf s'
  | Panic => LoadFromMsgPack E G s l b = Panic
  | OutOfFuel => False
  end.
Proof.
  intros E G s s1 l b W L BB NE CL. assert (OL : ok_loc none_set s l) by (split; [exact L|intros []]).
  pose proof (load_outcome E G s s1 l b W OL BB NE CL) as H. pose proof (C61_failure E G s None b W BB) as F.
  destruct (NewValueFromMsgPack E b) as [v|e| |]; auto; destruct H as (s' & H); exists s'; (split; [exact H|]);
    apply (tr_LoadMsg none_set none_set E G s l b s' _ W OL H).
Qed.
Print Assumptions C10_outcome.
(** For which receivers the value loaded is the value decoded anew, whatever the receiver held: see
    [load_agrees]. *)
Theorem C10_content : forall E G s s1 l b v, wf s -> bytes_ok b -> Clear s l = Ok s1 -> live s1 l -> (5 <= l)%nat ->
  NewValueFromMsgPack E b = Ok v -> ~ map_into_array (hp s l) v ->
  exists s', LoadFromMsgPack E G s l b = Ok (s', None) /\ wf s' /\
    (shows (hp s') (Some l) v <-> load_agrees (hp s l) v).
Proof.
  intros E G s s1 l b v W B CL L L5 Q NM. destruct (load_content E G s s1 l b v W B CL L L5 Q NM) as (s' & A1 & A2 & A3 & _).
  exists s'. auto.
Qed.
Print Assumptions C10_content.

(** For every receiver, arrays included: see [load_exact].  A map loaded into an array is the map decoded
    anew exactly when its first key is no number. *)
Theorem C10_exact : forall E G s s1 l b v, wf s -> bytes_ok b -> Clear s l = Ok s1 -> live s1 l -> (5 <= l)%nat ->
  NewValueFromMsgPack E b = Ok v ->
  exists s', LoadFromMsgPack E G s l b = Ok (s', None) /\ wf s' /\
    (shows (hp s') (Some l) v <-> load_exact E (hp s l) v).
Proof.
  intros E G s s1 l b v W B CL L L5 Q. destruct (load_any E G s s1 l b v W B CL L L5 Q) as (s' & A1 & A2 & A3 & _). eauto.
Qed.
Print Assumptions C10_exact.

(** An object [{"a":7,"b":true}] in cell 5. *)
Definition recv_ops : list op := [ONewObject; OSetKey 5 (bs "a") TInt; OSetInt 6 7; OSetKeyValue 5 (bs "b") (Some 0%nat)].
Definition recv_st : st := st_of e1 g0 recv_ops.
Lemma recv_wf : wf recv_st.
Proof. apply st_of_wf; vm_compute; reflexivity. Qed.
Example C10_case : exists s1, wf recv_st /\ bytes_ok nested_msg /\ Clear recv_st 5 = Ok s1 /\ live s1 5 /\
  ~ map_into_array (hp recv_st 5) (VObject true [(bs "a", VArray [VInt 0 1; VFloat 1075838976; VNull])]) /\
  load_agrees (hp recv_st 5) (VObject true [(bs "a", VArray [VInt 0 1; VFloat 1075838976; VNull])]) /\
  ok_map (fun r => view 4 (hp (fst r)) (Some 5%nat)) (LoadFromMsgPack e1 g0 recv_st 5 nested_msg)
  = Some (Some (VObject true [(bs "a", VArray [VInt 0 1; VFloat 1075838976; VNull])])).
Proof.
  destruct (ok_ex (fun s => live_b s 5) (Clear recv_st 5) true) as (s1 & Q1 & Q2); [vm_compute; reflexivity|].
  exists s1. split; [exact recv_wf|]. split; [repeat constructor; cbv; intuition discriminate|]. split; [exact Q1|].
  split; [apply live_of; exact Q2|]. assert (D : c_dt (hp recv_st 5) = TObject) by (vm_compute; reflexivity).
  split; [intros [X _]; congruence|]. split; [cbn [load_agrees]; congruence|]. vm_compute; reflexivity.
Qed.

(** The string ["hi"] loaded into that object: the receiver stays an empty object. *)
Theorem C10_string_refuted : exists s', NewValueFromMsgPack e1 [162;104;105] = Ok (VString (bs "hi")) /\
  LoadFromMsgPack e1 g0 recv_st 5 [162;104;105] = Ok (s', None) /\ rep (hp s') (Some 5%nat) (VObject false []).
Proof.
  destruct (ok_ex (fun r => (snd r, view 3 (hp (fst r)) (Some 5%nat))) (LoadFromMsgPack e1 g0 recv_st 5 [162;104;105])
    (None, Some (VObject false []))) as ([s' e] & Q1 & Q2); [vm_compute; reflexivity|].
  cbn [fst snd] in Q2. apply pair_equal_spec in Q2 as [-> V]. exists s'. split; [vm_compute; reflexivity|]. split; [exact Q1|exact (view_rep _ _ _ _ V)].
Qed.
Print Assumptions C10_string_refuted.
(** The empty array loaded into it: the same. *)
Theorem C10_empty_refuted : exists s', NewValueFromMsgPack e1 [144] = Ok (VArray []) /\
  LoadFromMsgPack e1 g0 recv_st 5 [144] = Ok (s', None) /\ rep (hp s') (Some 5%nat) (VObject false []).
Proof.
  destruct (ok_ex (fun r => (snd r, view 3 (hp (fst r)) (Some 5%nat))) (LoadFromMsgPack e1 g0 recv_st 5 [144])
    (None, Some (VObject false []))) as ([s' e] & Q1 & Q2); [vm_compute; reflexivity|].
  cbn [fst snd] in Q2. apply pair_equal_spec in Q2 as [-> V]. exists s'. split; [vm_compute; reflexivity|]. split; [exact Q1|exact (view_rep _ _ _ _ V)].
Qed.
Print Assumptions C10_empty_refuted.
(** A timestamp loaded into it becomes a plain double. *)
Theorem C10_time_refuted : exists s', NewValueFromMsgPack e1 [214;255;0;0;0;0] = Ok (VDateTime 0) /\
  LoadFromMsgPack e1 g0 recv_st 5 [214;255;0;0;0;0] = Ok (s', None) /\ rep (hp s') (Some 5%nat) (VDouble 0).
Proof.
  destruct (ok_ex (fun r => (snd r, view 3 (hp (fst r)) (Some 5%nat))) (LoadFromMsgPack e1 g0 recv_st 5 [214;255;0;0;0;0])
    (None, Some (VDouble 0))) as ([s' e] & Q1 & Q2); [vm_compute; reflexivity|].
  cbn [fst snd] in Q2. apply pair_equal_spec in Q2 as [-> V]. exists s'. split; [vm_compute; reflexivity|]. split; [exact Q1|exact (view_rep _ _ _ _ V)].
Qed.
Print Assumptions C10_time_refuted.
(** The map [{"0":1}] loaded into an array becomes the array [[1]]. *)
Definition recv_arr : list op := [ONewArray; OSetIndexValue 5 0 (Some 0%nat)].
Theorem C10_map_into_array_refuted : exists s', NewValueFromMsgPack e1 [129;161;48;1] = Ok (VObject true [(bs "0", VInt 0 1)]) /\
  LoadFromMsgPack e1 g0 (st_of e1 g0 recv_arr) 5 [129;161;48;1] = Ok (s', None) /\ rep (hp s') (Some 5%nat) (VArray [VInt 0 1]).
Proof.
  destruct (ok_ex (fun r => (snd r, view 3 (hp (fst r)) (Some 5%nat))) (LoadFromMsgPack e1 g0 (st_of e1 g0 recv_arr) 5 [129;161;48;1])
    (None, Some (VArray [VInt 0 1]))) as ([s' e] & Q1 & Q2); [vm_compute; reflexivity|].
  cbn [fst snd] in Q2. apply pair_equal_spec in Q2 as [-> V]. exists s'. split; [vm_compute; reflexivity|]. split; [exact Q1|exact (view_rep _ _ _ _ V)].
Qed.
Print Assumptions C10_map_into_array_refuted.
(** [{"a":1,"0":2}] loaded into that array is the map. *)
Definition mixed_msg : bytes := [130;161;97;1;161;48;2].
Example C10_exact_case : exists s1 v, wf (st_of e1 g0 recv_arr) /\ bytes_ok mixed_msg /\ Clear (st_of e1 g0 recv_arr) 5 = Ok s1 /\ live s1 5 /\
  c_dt (hp (st_of e1 g0 recv_arr) 5) = TArray /\ v = VObject true [(bs "a", VInt 0 1); (bs "0", VInt 0 2)] /\
  NewValueFromMsgPack e1 mixed_msg = Ok v /\ load_exact e1 (hp (st_of e1 g0 recv_arr) 5) v /\
  ~ load_exact e1 (hp (st_of e1 g0 recv_arr) 5) (VObject true [(bs "0", VInt 0 1)]) /\
  ok_map (fun r => view 4 (hp (fst r)) (Some 5%nat)) (LoadFromMsgPack e1 g0 (st_of e1 g0 recv_arr) 5 mixed_msg) = Some (Some v).
Proof.
  destruct (ok_ex (fun s => live_b s 5) (Clear (st_of e1 g0 recv_arr) 5) true) as (s1 & Q1 & Q2); [vm_compute; reflexivity|].
  exists s1, (VObject true [(bs "a", VInt 0 1); (bs "0", VInt 0 2)]). split; [apply st_of_wf; vm_compute; reflexivity|].
  split; [repeat constructor; cbv; intuition discriminate|]. split; [exact Q1|]. split; [apply live_of; exact Q2|].
  assert (D : c_dt (hp (st_of e1 g0 recv_arr) 5) = TArray) by (vm_compute; reflexivity). split; [exact D|].
  split; [reflexivity|]. split; [vm_compute; reflexivity|]. split; [intros _; vm_compute; reflexivity|].
  split; [|vm_compute; reflexivity]. intros X. specialize (X D). vm_compute in X. discriminate X.
Qed.
(** The empty message: an error for [NewValueFromMsgPack], success for [LoadFromMsgPack]. *)
Theorem C10_empty_message_refuted : exists e s', NewValueFromMsgPack e1 [] = Err e /\ LoadFromMsgPack e1 g0 recv_st 5 [] = Ok (s', None).
Proof.
  destruct (ok_ex snd (LoadFromMsgPack e1 g0 recv_st 5 []) None) as ([s' e] & Q1 & Q2); [vm_compute; reflexivity|].
  cbn [snd] in Q2. subst. exists ErrUnKnownCode, s'. split; [vm_compute; reflexivity|exact Q1].
Qed.
Print Assumptions C10_empty_message_refuted.
