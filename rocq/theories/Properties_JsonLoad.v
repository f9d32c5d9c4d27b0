(** Properties C66 and C67: JSON decoded into memory that held something before. *)
From Coq Require Import String.
From Verif Require Import Base Values Tactics Env0 JsonModel JsonSpec JsonSound JsonThms HeapModel MsgLoadModel JsonLoadModel HeapSpec MsgLoadSpec JsonLoadSpec HeapBase HeapConf
  HeapGet HeapCalls HeapClone HeapBuild MsgLoadThms JsonLoadThms JsonLoadKept HeapView Properties_Json Properties_Map Properties_Heap Properties_Clone Properties_Merge Properties_MsgLoad.
Local Notation shows := MsgLoadSpec.shows.

(** The environment of the examples: [env0] with integers cut to 64 bits. *)
Definition e64 : env :=
  {| ignore_case := true; x_fold := x_fold e1; x_unescape := x_unescape e1; x_escape := x_escape e1;
     x_str2int := fun b d => Z.max (- 2^63) (Z.min (2^63 - 1) (str2int0 b d));
     x_str2f64 := x_str2f64 e1; x_parsefloat := x_parsefloat e1; x_jsontime := x_jsontime e1;
     x_f64_to_f32 := x_f64_to_f32 e1; x_f32_to_f64 := x_f32_to_f64 e1; x_i64_to_f64 := x_i64_to_f64 e1;
     x_f64_to_i64 := x_f64_to_i64 e1; x_f64_eq := x_f64_eq e1; x_fmt_f64 := x_fmt_f64 e1; x_delphi := x_delphi e1;
     x_totime := x_totime e1; x_fmt_time := x_fmt_time e1; x_bin2hex := x_bin2hex e1 |}.
Lemma e64_num : num_env e64.
Proof.
  split; cbn [e64 x_str2int x_f64_to_f32 e1 env0].
  - intros b d _. lia.
  - intros x. apply Z.mod_pos_bound. lia.
Qed.

(** ** C66 *)
(** [NewValueFromJson] in any state of the memory, with no cache, a new one or any pooled one: it succeeds
    exactly when the parser of C06-C09 does, and then the cells it returns read as the parser's value.  They
    are new or recycled, never in use, and no cell in use changes. *)
Theorem C66_content : forall E G s uc b v, num_env E -> wf s -> NewValueFromJson E b = Ok v ->
  exists s' p, h_NewValueFromJson E G s uc b = Ok (s', inr p) /\ wf s' /\ shows (hp s') p v /\
    (forall x, live s x -> hp s' x = hp s x /\ live s' x) /\
    (forall r x, p = Some r -> reach (hp s') r x -> (x < 5)%nat \/ ((5 <= x)%nat /\ ~ live s x /\ live s' x)).
Proof.
  intros E G s uc b v NE W Q. pose proof (new_json E G NE s uc b W) as H. rewrite Q in H. destruct H as (s' & p & H & D).
  exists s', p. split; [exact H|]. split; [apply (tr_NewJson none_set none_set E G s uc b s' (inr p) W H)|].
  destruct (cache_of_same G s uc W) as (HP & LV & LV' & W1 & OC). split; [|split].
  - destruct p as [r|]; [|destruct D as [-> _]; exists VNilP; split; [constructor|reflexivity]].
    destruct D as (w & L & K). exists w. split; [apply (k_rep _ _ _ _ _ K)|exact L].
  - intros x L. destruct (decoded_frame _ _ _ _ _ x D (LV x L)) as [A B]. rewrite HP in A. auto.
  - intros r x -> R. destruct D as (w & _ & K). destruct (k_new _ _ _ _ _ K x R) as [A|(A & B & C)]; [auto|].
    right. split; [auto|split; [|auto]]. intros L. apply B, LV, L.
Qed.
Print Assumptions C66_content.
(** When the parser fails, so does the call, with the same error; it never panics; no cell in use changes. *)
Theorem C66_failure : forall E G s uc b, num_env E -> wf s ->
  match NewValueFromJson E b with
  | Ok _ => True
  | Err e => exists s', h_NewValueFromJson E G s uc b = Ok (s', inl e) /\ wf s' /\ forall x, live s x -> hp s' x = hp s x
  | Panic | OutOfFuel => False
  end.
Proof.
  intros E G s uc b NE W. pose proof (new_json E G NE s uc b W) as H.
  pose proof (NewValueFromJson_good E b) as GD.
  destruct (NewValueFromJson E b) as [v|e| |] eqn:Q; auto; try (exfalso; destruct GD; congruence).
  destruct H as (s' & H & K). exists s'. split; [exact H|]. split; [apply (tr_NewJson none_set none_set E G s uc b s' (inl e) W H)|].
  destruct (cache_of_same G s uc W) as (HP & LV & _). intros x L. rewrite <- HP. apply K. auto.
Qed.
Print Assumptions C66_failure.
(** Without a cache, or in a new one: no later call on other values changes what was decoded. *)
Theorem C66_confined : forall E G s uc b v, num_env E -> wf s -> (uc = None \/ uc = Some None) -> NewValueFromJson E b = Ok v ->
  exists s' p, h_NewValueFromJson E G s uc b = Ok (s', inr p) /\
    (forall r x, p = Some r -> reach (hp s') r x -> (x < 5)%nat \/ made (nx s) (nx s') x) /\
    forall os s'', runs E G (made (nx s) (nx s')) s' os s'' -> shows (hp s'') p v.
Proof.
  intros E G s uc b v NE W UC Q. pose proof (new_json E G NE s uc b W) as H. rewrite Q in H. destruct H as (s' & p & H & D).
  exists s', p. split; [exact H|]. destruct p as [r|].
  - destruct D as (w & L & K). destruct (fresh_confined E G s uc w r s' W UC K) as (_ & A & B). split.
    + intros r0 x X. injection X as <-. apply A.
    + intros os s'' R. exists w. split; [eapply B; exact R|exact L].
  - destruct D as [-> _]. split; [intros r x X; discriminate|]. intros os s'' _. exists VNilP. split; [constructor|reflexivity].
Qed.
Print Assumptions C66_confined.

(** [{"a":[1,"x",null]}] read into a cache that held an integer before. *)
Definition nested_json : bytes := bs "{""a"":[1,""x"",null]}".
Definition nested_tree : value := VObject false [(bs "a", VArray [VInt 0 1; VRawString (bs "x"); VNull])].
Example C66_case : num_env e64 /\ wf recycled_st /\ NewValueFromJson e64 nested_json = Ok nested_tree /\
  ok_map (fun r => match snd r with inr p => view 4 (hp (fst r)) p | _ => None end)
    (h_NewValueFromJson e64 g0 recycled_st (Some (Some 0%nat)) nested_json) = Some (Some nested_tree) /\
  exists e, NewValueFromJson e64 (bs "{""a"":[1,2}") = Err e.
Proof.
  split; [exact e64_num|]. split; [exact recycled_wf|]. split; [vm_compute; reflexivity|]. split; [vm_compute; reflexivity|].
  eexists. vm_compute. reflexivity.
Qed.

(** ** C67 *)
(** [LoadFromJson] into a value of any type, in any state of the memory: it succeeds exactly when the loader
    of C27 does, and then the receiver reads as that loader says (float32 values by their 32 bits). *)
Theorem C67_content : forall E G s s1 l b v v', num_env E -> wf s -> Clear s l = Ok s1 -> live s1 l -> (5 <= l)%nat ->
  rep (hp s) (Some l) v -> LoadFromJson E v b = (v', Ok tt) ->
  exists s', h_LoadFromJson E G s l b = Ok (s', None) /\ wf s' /\ shows (hp s') (Some l) (low v').
Proof.
  intros E G s s1 l b v v' NE W CL L L5 R Q. pose proof (load_json E G NE s s1 l b v W CL L L5 R) as H. rewrite Q in H.
  destruct H as (s' & A & B). exists s'. split; [exact A|]. split; [|exact B].
  assert (OL : ok_loc none_set s l). { split; [|intros []]. rewrite <- (Clear_nx s l s1 CL). apply L. }
  apply (tr_LoadJson none_set none_set E G s l b s' W OL A).
Qed.
Print Assumptions C67_content.
(** A load that fails reports the same error, and the receiver reads as the loader of C27 says, provided the
    memory behind its pair list holds nothing. *)
Theorem C67_failure : forall E G s s1 l b v v' e, num_env E -> wf s -> Clear s l = Ok s1 -> live s1 l -> (5 <= l)%nat ->
  rep (hp s) (Some l) v -> LoadFromJson E v b = (v', Err e) ->
  exists s', h_LoadFromJson E G s l b = Ok (s', Some e) /\
    ((is_obj v -> no_stale (hp s l)) -> shows (hp s') (Some l) (low v')).
Proof.
  intros E G s s1 l b v v' e NE W CL L L5 R Q. pose proof (load_json E G NE s s1 l b v W CL L L5 R) as H. rewrite Q in H.
  destruct H as (s' & A & B). exists s'. split; [exact A|]. intros NS. apply B. intros D. apply NS.
  inversion R; subst; try congruence; exact I.
Qed.
Print Assumptions C67_failure.
(** Hence: a text that parses, loaded into a receiver of its kind, gives what [NewValueFromJson] gives. *)
Theorem C67_agrees : forall E G s s1 l b r v, num_env E -> wf s -> Clear s l = Ok s1 -> live s1 l -> (5 <= l)%nat ->
  rep (hp s) (Some l) r -> NewValueFromJson E b = Ok v ->
  (is_obj v -> is_obj r) -> (is_arr v -> is_arr r) -> ~ is_vnum v -> v <> VNilP ->
  exists s' s'' p, h_LoadFromJson E G s l b = Ok (s', None) /\ h_NewValueFromJson E G s None b = Ok (s'', inr p) /\
    shows (hp s') (Some l) v /\ shows (hp s'') p v.
Proof.
  intros E G s s1 l b r v NE W CL L L5 R Q A1 A2 A3 A4.
  destruct (C67_content E G s s1 l b r v NE W CL L L5 R (C27_agrees E r b v Q A1 A2 A3 A4)) as (s' & H1 & _ & H2).
  destruct (C66_content E G s None b v NE W Q) as (s'' & p & H3 & _ & H4 & _).
  exists s', s'', p. split; [exact H1|]. split; [exact H3|]. split; [|exact H4].
  destruct H4 as (w & _ & <-). rewrite low_low in H2. exact H2.
Qed.
Print Assumptions C67_agrees.

(** A load, failed or not, changes no other cell in use; below the receiver of one that succeeds hang only
    shared constants and cells that were not in use. *)
Theorem C67_frame : forall E G s s1 l b s' e, num_env E -> wf s -> Clear s l = Ok s1 -> live s1 l -> (5 <= l)%nat ->
  h_LoadFromJson E G s l b = Ok (s', e) ->
  (forall x, live s1 x -> x <> l -> hp s' x = hp s1 x) /\
  (e = None -> forall x, reach (hp s') l x -> x = l \/ (x < 5)%nat \/ ((5 <= x)%nat /\ ~ live s1 x /\ live s' x)).
Proof.
  intros E G s s1 l b s' e NE W CL L L5 H. split.
  - exact (load_kept E G NE s s1 l b s' e W CL L L5 H).
  - intros -> x. exact (proj1 (load_new E G NE s s1 l b s' W CL L L5 H) x).
Qed.
Print Assumptions C67_frame.

(** The object [{"a":7,"b":true}] as a receiver. *)
Example C67_case : exists s1 e v', num_env e64 /\ wf recv_st /\ Clear recv_st 5 = Ok s1 /\ live s1 5 /\
  rep (hp recv_st) (Some 5%nat) (VObject true [(bs "a", VInt 0 7); (bs "b", VTrue)]) /\
  NewValueFromJson e64 nested_json = Ok nested_tree /\
  ok_map (fun r => view 4 (hp (fst r)) (Some 5%nat)) (h_LoadFromJson e64 g0 recv_st 5 nested_json) = Some (Some nested_tree) /\
  LoadFromJson e64 (VObject true [(bs "a", VInt 0 7); (bs "b", VTrue)]) (bs "{""x"":1,2") = (v', Err e) /\
  no_stale (hp recv_st 5).
Proof.
  destruct (ok_ex (fun s => live_b s 5) (Clear recv_st 5) true) as (s1 & Q1 & Q2); [vm_compute; reflexivity|].
  exists s1. eexists. eexists. split; [exact e64_num|]. split; [exact recv_wf|]. split; [exact Q1|]. split; [apply live_of; exact Q2|].
  split; [apply (view_rep 3); vm_compute; reflexivity|]. split; [vm_compute; reflexivity|]. split; [vm_compute; reflexivity|].
  split; [vm_compute; reflexivity|]. vm_compute. repeat constructor.
Qed.

(** After [RemoveKey("b")] the removed pair is still behind the list.  A load of [{"x":1,2] fails, and the
    receiver has the removed key and its value again. *)
Definition removed_st : st := st_of e64 g0 (recv_ops ++ [ORemoveKey 5 (bs "b")]).
Lemma removed_wf : wf removed_st.
Proof. apply st_of_wf; vm_compute; reflexivity. Qed.
Theorem C67_stale_refuted : exists s' e, wf removed_st /\ rep (hp removed_st) (Some 5%nat) (VObject true [(bs "a", VInt 0 7)]) /\
  LoadFromJson e64 (VObject true [(bs "a", VInt 0 7)]) (bs "{""x"":1,2") = (VObject false [(bs "x", VInt 0 1); ([], VNilP)], Err e) /\
  h_LoadFromJson e64 g0 removed_st 5 (bs "{""x"":1,2") = Ok (s', Some e) /\
  rep (hp s') (Some 5%nat) (VObject false [(bs "x", VInt 0 1); (bs "b", VTrue)]).
Proof.
  destruct (ok_ex (fun r => (snd r, view 3 (hp (fst r)) (Some 5%nat))) (h_LoadFromJson e64 g0 removed_st 5 (bs "{""x"":1,2"))
    (Some (ErrJson JET_NoKeyStart 0 (bs "2")), Some (VObject false [(bs "x", VInt 0 1); (bs "b", VTrue)]))) as ([s' e] & Q1 & Q2); [vm_compute; reflexivity|].
  cbn [fst snd] in Q2. apply pair_equal_spec in Q2 as [-> V]. exists s'. eexists. split; [exact removed_wf|].
  split; [apply (view_rep 3); vm_compute; reflexivity|]. split; [vm_compute; reflexivity|]. split; [exact Q1|exact (view_rep _ _ _ _ V)].
Qed.
Print Assumptions C67_stale_refuted.
