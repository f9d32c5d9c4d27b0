(** Property C79: [Marshal] and [Unmarshal]. *)
From Coq Require Import String.
From Verif Require Import Base Values Tactics Env0 MsgPackModel BsonModel JsonModel JsonSpec JsonWrite JsonThms Env0Thms.
From Verif Require Import HeapModel MsgLoadModel JsonLoadModel BsonLoadModel HeapSpec MsgLoadSpec JsonLoadSpec HeapBase HeapConf HeapGet HeapCalls HeapClone HeapEqual MsgLoadThms
  EncodeModel EncodeThms EncodeRead MarshalModel HeapView
  Properties_Json Properties_Map Properties_Heap Properties_Clone Properties_Merge Properties_JsonLoad Properties_Encode.
Local Notation shows := MsgLoadSpec.shows.

(** ** C79 *)
(** States with the same cells, caches and pool are cleared alike. *)
Lemma Clear_like s s1 l s2 : (forall x, hp s1 x = hp s x) -> nx s1 = nx s -> cs s1 = cs s -> nc s1 = nc s -> Clear s l = Ok s2 ->
  exists s3, Clear s1 l = Ok s3 /\ (live s2 l -> live s3 l).
Proof.
  intros H N1 N2 N3 C. unfold Clear in *. rewrite H. destruct (c_own (hp s l)) as [k|].
  - unfold cache_reset in *. cbv zeta in *. rewrite N2. destruct (ca_slots (cs s k)) eqn:Q; [discriminate C|]. cbn [bind] in *.
    injection C as <-. eexists. split; [reflexivity|]. unfold live. cbn [set_cell set_cache nx cs nc]. rewrite N1, N2, N3. auto.
  - cbn [bind] in *. injection C as <-. eexists. split; [reflexivity|]. unfold live. cbn [set_cell nx cs nc]. rewrite N1, N2, N3. auto.
Qed.
(** A value that is marshalled and unmarshalled into a receiver - itself, a part of it, or any other -
    denotes what it denoted before.  The receiver of an object or array must be one; numbers are left
    out (see below). *)
Theorem C79_roundtrip : forall E v, int_parser_ok E -> num_env E -> jplain E true v -> ~ is_vnum v -> v <> VNilP ->
  exists n0, forall fuel G s s0 p l r, (n0 <= fuel)%nat -> wf s -> rep (hp s) p v -> (forall x, p = Some x -> live s x) ->
  Clear s l = Ok s0 -> live s0 l -> (5 <= l)%nat -> rep (hp s) (Some l) r -> (is_obj v -> is_obj r) -> (is_arr v -> is_arr r) ->
  exists b s1 s' v', Marshal E fuel s p = Ok (b, s1) /\ Unmarshal E G s1 b l = Ok (s', None) /\ wf s' /\
    shows (hp s') (Some l) v' /\ denote E v' = denote E v.
Proof.
  intros E v I N J NV NN. destruct (C18_roundtrip E _ true true v [] I eq_refl J (Forall_nil _)) as (b & v' & O & D & Q).
  { intros T. destruct v; try destruct T. exfalso. apply NV. exact Logic.I. }
  rewrite app_nil_r in D.
  destruct (C74_json E JSE_AllEscape true v) as (n0 & H). exists n0. intros fuel G s s0 p l r Hf W R L CL LL L5 Rl KO KA.
  specialize (H fuel s p [] Hf R). rewrite O in H. destruct H as (s1 & A & SR & N1 & N2 & N3 & N4 & U).
  specialize (U ltac:(discriminate)).
  assert (W1 : wf s1).
  { apply (tr_json none_set none_set E JSE_AllEscape true false fuel s 0%nat p [] b s1 W); [|exact A]. intros x ->. split; [apply L; auto|intros []]. }
  destruct (Clear_like s s1 l s0 U N1 N2 N3 CL) as (s2 & CL1 & LL1).
  assert (R1 : rep (hp s1) (Some l) r) by (apply (rep_frame (hp s)); auto).
  assert (K : (is_obj v' -> is_obj v) /\ (is_arr v' -> is_arr v) /\ ~ is_vnum v' /\ v' <> VNilP).
  { clear - Q NV NN J O D. destruct v, v'; cbn [denote] in Q; try discriminate Q; cbn [jplain] in J; try tauto; cbn; repeat split; auto; try tauto; try congruence.
    injection O as <-. vm_compute in D. discriminate D. }
  destruct K as (K1 & K2 & K3 & K4).
  destruct (C67_agrees E G s1 s2 l b r v' N W1 CL1 (LL1 LL) L5 R1 D) as (s' & s'' & q & B1 & _ & B2 & _); auto.
  exists b, s1, s', v'. split; [exact A|]. split; [exact B1|]. split; [|split; [exact B2|exact Q]].
  assert (OL : ok_loc none_set s1 l). { split; [|intros []]. destruct LL as [X _]. rewrite (Clear_nx s l s0 CL) in X. lia. }
  apply (tr_LoadJson none_set none_set E G s1 l b s' W1 OL B1).
Qed.
Print Assumptions C79_roundtrip.

(** The object read from [esc_json], into itself. *)
Example C79_case : exists s0, int_parser_ok e64 /\ num_env e64 /\ wf esc_st /\ rep (hp esc_st) (Some 5%nat) esc_tree /\ jplain e64 true esc_tree /\
  ~ is_vnum esc_tree /\ live esc_st 5 /\ Clear esc_st 5 = Ok s0 /\ live s0 5 /\
  exists b s1, Marshal e64 9 esc_st (Some 5%nat) = Ok (b, s1) /\ b = esc_json /\
    exists s', Unmarshal e64 g0 s1 b 5 = Ok (s', None) /\ view 9 (hp s') (Some 5%nat) = Some esc_tree.
Proof.
  destruct (ok_ex (fun s => live_b s 5) (Clear esc_st 5) true) as (s0 & Q1 & Q2); [vm_compute; reflexivity|]. exists s0.
  destruct C76_case as (_ & _ & _ & _ & _ & _ & _ & A1 & A2 & _). destruct C74_case as (B1 & B2 & B3 & _).
  split; [exact A1|]. split; [exact e64_num|]. split; [exact B1|]. split; [exact B3|]. split; [exact A2|]. split; [intros []|].
  split; [exact B2|]. split; [exact Q1|]. split; [apply live_of; exact Q2|].
  assert (X : ok_map (fun r => (fst r, ok_map (fun u => (snd u, view 9 (hp (fst u)) (Some 5%nat))) (Unmarshal e64 g0 (snd r) (fst r) 5)))
     (Marshal e64 9 esc_st (Some 5%nat)) = Some (esc_json, Some (None, Some esc_tree))) by (vm_compute; reflexivity).
  apply ok_ex in X as ([b s1] & X1 & X2). cbn [fst snd] in X2. apply pair_equal_spec in X2 as [-> X2].
  apply ok_ex in X2 as ([s' o] & X2 & X3). cbn [fst snd] in X3. apply pair_equal_spec in X3 as [-> X3].
  exists esc_json, s1. split; [exact X1|]. split; [reflexivity|]. exists s'. split; [exact X2|exact X3].
Qed.

(** An array unmarshalled into a number reports no error and leaves the number.  So does an integer: the
    number read must be followed by another byte, and otherwise is dropped. *)
Definition kinds_st : st := st_of e64 g0 [OFromJson None (bs "[1]"); ONew TInt; OSetInt 13 7].
Theorem C79_kind_refuted : wf kinds_st /\
  view 3 (hp kinds_st) (Some 5%nat) = Some (VArray [VInt 0 1]) /\ view 3 (hp kinds_st) (Some 13%nat) = Some (VInt 0 7) /\
  (exists b s1, Marshal e64 9 kinds_st (Some 5%nat) = Ok (b, s1) /\
     exists s', Unmarshal e64 g0 s1 b 13 = Ok (s', None) /\ view 3 (hp s') (Some 13%nat) = Some (VInt 0 7)) /\
  (exists b s1, Marshal e64 9 kinds_st (Some 13%nat) = Ok (b, s1) /\
     exists s', Unmarshal e64 g0 s1 b 6 = Ok (s', None) /\ view 3 (hp s') (Some 6%nat) = Some (VInt 0 1)).
Proof.
  split; [apply st_of_wf; vm_compute; reflexivity|]. split; [vm_compute; reflexivity|]. split; [vm_compute; reflexivity|]. split.
  - assert (X : ok_map (fun r => ok_map (fun u => (snd u, view 3 (hp (fst u)) (Some 13%nat))) (Unmarshal e64 g0 (snd r) (fst r) 13))
     (Marshal e64 9 kinds_st (Some 5%nat)) = Some (Some (None, Some (VInt 0 7)))) by (vm_compute; reflexivity).
    apply ok_ex in X as ([b s1] & X1 & X2). cbn [fst snd] in X2.
    apply ok_ex in X2 as ([s' o] & X2 & X3). cbn [fst snd] in X3. apply pair_equal_spec in X3 as [-> X3].
    exists b, s1. split; [exact X1|]. exists s'. split; [exact X2|exact X3].
  - assert (X : ok_map (fun r => ok_map (fun u => (snd u, view 3 (hp (fst u)) (Some 6%nat))) (Unmarshal e64 g0 (snd r) (fst r) 6))
     (Marshal e64 9 kinds_st (Some 13%nat)) = Some (Some (None, Some (VInt 0 1)))) by (vm_compute; reflexivity).
    apply ok_ex in X as ([b s1] & X1 & X2). cbn [fst snd] in X2.
    apply ok_ex in X2 as ([s' o] & X2 & X3). cbn [fst snd] in X3. apply pair_equal_spec in X3 as [-> X3].
    exists b, s1. split; [exact X1|]. exists s'. split; [exact X2|exact X3].
Qed.
Print Assumptions C79_kind_refuted.
