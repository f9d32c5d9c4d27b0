(** Property C83: [Marshal] and [Unmarshal] given a [DxValue] instead of a pointer. *)
From Coq Require Import String.
From Verif Require Import Base Values Tactics Env0 MsgPackModel BsonModel JsonModel JsonSpec JsonWrite JsonThms Env0Thms.
From Verif Require Import HeapModel MsgLoadModel JsonLoadModel BsonLoadModel HeapSpec MsgLoadSpec JsonLoadSpec HeapBase HeapConf HeapGet HeapCalls HeapForce HeapClone
  HeapMerge HeapEqual HeapBuild MsgLoadThms JsonLoadThms JsonLoadKept EncodeModel EncodeThms EncodeRead MarshalModel CopyThms HeapView
  Properties_Json Properties_Map Properties_Heap Properties_Clone Properties_Merge Properties_MsgLoad Properties_JsonLoad Properties_Encode Properties_Marshal.
Local Notation shows := MsgLoadSpec.shows.
Local Notation N := none_set.

Lemma copy_clear s l s1 : wf s -> Clear s l = Ok s1 -> live s1 l ->
  exists s2, Clear (copy_of s l) (nx s) = Ok s2 /\ live s2 (nx s) /\ hp s2 l = hp s l /\ (forall x, live s1 x -> live s2 x).
Proof.
  intros W C L. assert (LT : (l < nx s)%nat) by (rewrite <- (Clear_nx s l s1 C); apply L).
  assert (FR : forall k, (k < nc s)%nat -> ~ In (nx s) (ca_slots (cs s k))).
  { intros k K IN. destruct (i_cache _ _ _ W k K) as (_ & _ & _ & F). rewrite Forall_forall in F. specialize (F _ IN). lia. }
  assert (SK : forall k n, (k < nc s)%nat -> ~ In (nx s) (skipn n (ca_slots (cs s k)))).
  { intros k n K IN. apply (FR k K). rewrite <- (firstn_skipn n (ca_slots (cs s k))). apply in_or_app. right. exact IN. }
  unfold Clear in *. rewrite copy_at. destruct (c_own (hp s l)) as [k|].
  - unfold cache_reset in *. cbv zeta in *. cbn [copy_of cs]. destruct (ca_slots (cs s k)) eqn:Q; [discriminate C|]. cbn [bind] in *.
    injection C as <-. eexists. split; [reflexivity|]. split; [|split].
    + split; cbn [set_cell set_cache copy_of nx nc cs]; [lia|]. intros k' K'. unfold upd. destruct (k' =? k)%nat eqn:EK.
      * apply Nat.eqb_eq in EK as ->. cbn [ca_len ca_slots]. rewrite <- Q. apply SK; auto.
      * apply SK; auto.
    + cbn [set_cell set_cache copy_of nx nc cs hp]. rewrite !upd_other by lia. reflexivity.
    + intros x [X1 X2]. split; cbn [set_cell set_cache copy_of nx nc cs] in *; [lia|]. exact X2.
  - cbn [bind] in *. injection C as <-. eexists. split; [reflexivity|]. split; [|split].
    + split; cbn [set_cell copy_of nx nc cs]; [lia|]. intros k' K'. apply SK; auto.
    + cbn [set_cell copy_of nx nc cs hp]. rewrite !upd_other by lia. reflexivity.
    + intros x [X1 X2]. split; cbn [set_cell copy_of nx nc cs] in *; [lia|]. exact X2.
Qed.

(** ** C83 *)
(** [Marshal] of the struct writes the bytes [Marshal] of the pointer writes. *)
Theorem C83_marshal : forall E v, exists n0, forall fuel s l b s1, (n0 <= fuel)%nat -> wf s -> (l < nx s)%nat -> rep (hp s) (Some l) v ->
  Marshal E fuel s (Some l) = Ok (b, s1) -> exists s2, MarshalByValue E fuel s l = Ok (b, s2) /\ forall x, (x < nx s)%nat -> hp s2 x = hp s x.
Proof.
  intros E v. destruct (C74_json E JSE_AllEscape true v) as (n0 & H). exists n0. intros fuel s l b s1 Hf W L R M.
  pose proof (H fuel s (Some l) [] Hf R) as H1. pose proof (H fuel (copy_of s l) (Some (nx s)) [] Hf (copy_rep s l v W L R)) as H2.
  unfold MarshalByValue, Marshal in *. rewrite M in H1. destruct (Value2Json E JSE_AllEscape true v []) as [o|e| |]; cbn [encodes] in *;
    try discriminate H1; try contradiction.
  destruct H1 as (s1' & A & _). injection A as -> <-. destruct H2 as (s2 & A & _ & _ & _ & _ & _ & U). exists s2. split; [exact A|].
  intros x X. rewrite U by discriminate. apply copy_hp. exact X.
Qed.
Print Assumptions C83_marshal.

(** What the owner of a value reads after [Unmarshal] on the struct, when loading into the pointer would have
    given [v']: an object keeps its number of pairs, an array its number of elements.  The first ones are
    those of the document, the others are empty. *)
Definition seen_after (v v' : value) : value :=
  match v with
  | VObject u kvs =>
      VObject u (firstn (List.length kvs) ((match v' with VObject _ ws => ws | _ => [] end) ++ repeat ([], VNilP) (List.length kvs)))
  | VArray vs => VArray (firstn (List.length vs) ((match v' with VArray ws => ws | _ => [] end) ++ repeat VNilP (List.length vs)))
  | _ => v
  end.
Lemma map_rep {A B} (f : A -> B) x n : map f (repeat x n) = repeat (f x) n.
Proof. induction n; cbn; congruence. Qed.
Lemma low_seen v w : low (seen_after v w) = seen_after (low v) (low w).
Proof.
  destruct v; try reflexivity; cbn [seen_after low].
  - rewrite map_length, <- firstn_map, map_app, map_rep. cbn [fst snd low].
    replace (map _ (match w with VObject _ ws => ws | _ => [] end)) with (match low w with VObject _ ws => ws | _ => [] end); [reflexivity|].
    destruct w; reflexivity.
  - rewrite map_length, <- firstn_map, map_app, map_rep. cbn [low].
    replace (map low (match w with VArray ws => ws | _ => [] end)) with (match low w with VArray ws => ws | _ => [] end); [reflexivity|].
    destruct w; reflexivity.
Qed.
Lemma overlay_blank {A B} (e : A) (ks : list B) sp new :
  firstn (List.length ks) (overlay (map (fun _ => e) ks ++ sp) new) = firstn (List.length ks) (new ++ repeat e (List.length ks)).
Proof.
  unfold overlay. rewrite firstn_firstn, app_length, map_length. replace (Nat.min _ _) with (List.length ks) by lia.
  assert (M : map (fun _ => e) ks = repeat e (List.length ks)) by (clear; induction ks; cbn; congruence). rewrite M. clear M.
  rewrite !firstn_app. f_equal. generalize (List.length ks) as n. intros n. generalize (List.length new) as m. intros m. revert m.
  induction n as [|n IH]; intros m; [reflexivity|]. destruct m as [|m].
  - rewrite Nat.sub_0_r. cbn [skipn]. rewrite firstn_app, repeat_length, Nat.sub_diag. cbn [firstn]. apply app_nil_r.
  - cbn [Nat.sub repeat app skipn]. rewrite IH. generalize (Nat.le_sub_l n m). generalize (n - m)%nat. clear. intros k L.
    change (e :: repeat e n) with (repeat e (S n)). revert n L. induction k as [|k IH]; intros n L; [reflexivity|]. destruct n; [lia|].
    cbn [repeat firstn] in *. f_equal. apply IH. lia.
Qed.
Lemma F2_firstn {A B} (R : A -> B -> Prop) n l m : Forall2 R l m -> Forall2 R (firstn n l) (firstn n m).
Proof. intros F. revert n. induction F; intros [|n]; cbn [firstn]; constructor; auto. Qed.
Lemma F2_repeat {A B} (R : A -> B -> Prop) a b n : R a b -> Forall2 R (repeat a n) (repeat b n).
Proof. intros H. induction n; cbn [repeat]; constructor; auto. Qed.
Theorem C83_unmarshal : forall E G s s1 l b v v', num_env E -> wf s -> Clear s l = Ok s1 -> live s1 l -> (5 <= l)%nat ->
  rep (hp s) (Some l) v -> LoadFromJson E v b = (v', Ok tt) ->
  exists s', UnmarshalByValue E G s b l = Ok (s', None) /\ shows (hp s') (Some l) (low (seen_after v v')).
Proof.
  intros E G s s1 l b v v' NE W CL L L5 R Q.
  assert (LT : (l < nx s)%nat) by (rewrite <- (Clear_nx s l s1 CL); apply L).
  destruct (copy_clear s l s1 W CL L) as (s2 & CL2 & L2 & HL2 & LV2). set (m := nx s) in *.
  assert (M5 : (5 <= m)%nat) by lia. pose proof (copy_wf s l W LT) as WC. pose proof (copy_rep s l v W LT R) as RC.
  pose proof (load_json E G NE (copy_of s l) s2 m b v WC CL2 L2 M5 RC) as H. rewrite Q in H. destruct H as (s3 & H & w & RW & LW).
  unfold UnmarshalByValue. fold m. rewrite H. cbn [bind]. eexists. split; [reflexivity|].
  assert (HL : hp s3 l = hp s l).
  { rewrite (load_kept E G NE _ s2 m b s3 None WC CL2 L2 M5 H l (LV2 l L)); [exact HL2|lia]. }
  assert (NR : forall y, sees (hp s3 m) y -> ~ reach (hp s3) y l).
  { intros y S X. assert (X1 : reach (hp s3) m l) by exact (reach_trans _ _ _ _ (reach_child _ _ _ S) X).
    destruct (proj1 (load_new E G NE _ s2 m b s3 WC CL2 L2 M5 H) l X1) as [Z|[Z|(_ & Z & _)]]; [lia|lia|]. apply Z. auto. }
  pose proof (load_kind E G NE _ s2 m b s3 WC CL2 L2 M5 H) as KD. rewrite copy_at in KD.
  rewrite HL. set (h' := hp (set_cell s3 l _)).
  assert (KP : forall p u, (forall y, p = Some y -> sees (hp s3 m) y) -> rep (hp s3) p u -> rep h' p u).
  { intros p u A B. apply (rep_frame (hp s3)); auto. intros x (y & -> & X). unfold h'. cbn [set_cell hp]. apply upd_other.
    intros ->. apply (NR y); auto. }
  assert (SC : forall u, c_dt (hp s l) <> TObject -> c_dt (hp s l) <> TArray -> rep (hp s) (Some l) u -> rep h' (Some l) u).
  { intros u D1 D2 RU. apply (rep_frame (hp s)); [exact RU|]. intros x (y & Y & X). injection Y as <-. apply reach_leaf in X.
    - subst x. unfold h'. cbn [set_cell hp]. rewrite upd_same. unfold shared_lists. destruct (c_dt (hp s l)); congruence.
    - intros y Y. unfold sees in Y. destruct (c_dt (hp s l)); auto. }
  exists (seen_after v w). split; [|rewrite !low_seen, LW; reflexivity].
  inversion R as [|l0 kvs D F|l0 vs D F|l0 D|l0 D|l0 D|l0 D|l0 D|l0 D|l0 D|l0 D|l0 D|l0 D|l0 D|l0 D|l0 D]; subst l0;
    cbn [seen_after];
    try (apply SC; [congruence|congruence|constructor; exact D]).
  - pose proof (F2_length _ _ _ F) as LN.
    assert (HX : h' l = shared_lists (hp s l) (hp s l) (hp s3 m)) by (unfold h'; cbn [set_cell hp]; apply upd_same).
    unfold shared_lists in HX. rewrite D in HX.
    apply rep_obj_intro; rewrite HX; [exact D|reflexivity|]. cbn [w_obj c_kvs]. rewrite overlay_blank, LN. apply F2_firstn, Forall2_app.
    2: { apply F2_repeat. split; [reflexivity|constructor]. }
    inversion RW as [|l0 kvs0 D0 F0|l0 vs0 D0 F0|l0 D0|l0 D0|l0 D0|l0 D0|l0 D0|l0 D0|l0 D0|l0 D0|l0 D0|l0 D0|l0 D0|l0 D0|l0 D0]; subst l0;
      try (destruct KD as [KD|[KD _]]; [congruence|rewrite KD; constructor]).
    eapply F2_in; [exact F0|]. intros a u IN [A B]. split; [exact A|]. apply KP; auto.
    intros y Y. apply (sees_obj G); auto. rewrite <- Y. apply in_map. exact IN.
  - pose proof (F2_length _ _ _ F) as LN.
    assert (HX : h' l = shared_lists (hp s l) (hp s l) (hp s3 m)) by (unfold h'; cbn [set_cell hp]; apply upd_same).
    unfold shared_lists in HX. rewrite D in HX.
    apply rep_arr; rewrite HX; [exact D|]. cbn [w_arr c_arr].
    pose proof (overlay_blank (@None nat) (c_arr (hp s l)) [] (c_arr (hp s3 m))) as OB. rewrite app_nil_r in OB.
    rewrite firstn_all2 in OB by (unfold overlay; rewrite firstn_length, map_length; lia).
    rewrite OB, LN. apply F2_firstn, Forall2_app.
    2: { apply F2_repeat. constructor. }
    inversion RW as [|l0 kvs0 D0 F0|l0 vs0 D0 F0|l0 D0|l0 D0|l0 D0|l0 D0|l0 D0|l0 D0|l0 D0|l0 D0|l0 D0|l0 D0|l0 D0|l0 D0|l0 D0]; subst l0;
      try (destruct KD as [KD|[_ KD]]; [congruence|rewrite KD; constructor]).
    eapply F2_in; [exact F0|]. intros a u IN B. apply KP; auto.
    intros y ->. apply (sees_arr G); auto.
Qed.
Print Assumptions C83_unmarshal.
(** Hence an empty object or array stays empty, whatever the document holds, and no error is reported. *)
Corollary C83_empty : forall E G s s1 l b v v', num_env E -> wf s -> Clear s l = Ok s1 -> live s1 l -> (5 <= l)%nat ->
  (exists u, v = VObject u []) \/ v = VArray [] -> rep (hp s) (Some l) v -> LoadFromJson E v b = (v', Ok tt) ->
  exists s', UnmarshalByValue E G s b l = Ok (s', None) /\ shows (hp s') (Some l) v.
Proof.
  intros E G s s1 l b v v' NE W CL L L5 K R Q. destruct (C83_unmarshal E G s s1 l b v v' NE W CL L L5 R Q) as (s' & A & B).
  exists s'. split; [exact A|]. destruct K as [[u ->]| ->]; exact B.
Qed.
Print Assumptions C83_empty.

(** A document that cannot be loaded: the error is that of loading into the pointer.  The owner keeps its type
    and its number of pairs or elements; of any other type it keeps its content. *)
Theorem C83_failure : forall E G s s1 l b v v' e, num_env E -> wf s -> Clear s l = Ok s1 -> live s1 l -> (5 <= l)%nat ->
  rep (hp s) (Some l) v -> LoadFromJson E v b = (v', Err e) ->
  exists s', UnmarshalByValue E G s b l = Ok (s', Some e) /\ c_dt (hp s' l) = c_dt (hp s l) /\
    List.length (c_kvs (hp s' l)) = List.length (c_kvs (hp s l)) /\ List.length (c_arr (hp s' l)) = List.length (c_arr (hp s l)) /\
    (~ is_obj v -> ~ is_arr v -> rep (hp s') (Some l) v).
Proof.
  intros E G s s1 l b v v' e NE W CL L L5 R Q.
  assert (LT : (l < nx s)%nat) by (rewrite <- (Clear_nx s l s1 CL); apply L).
  destruct (copy_clear s l s1 W CL L) as (s2 & CL2 & L2 & HL2 & LV2). set (m := nx s) in *.
  assert (M5 : (5 <= m)%nat) by lia. pose proof (copy_wf s l W LT) as WC. pose proof (copy_rep s l v W LT R) as RC.
  pose proof (load_json E G NE (copy_of s l) s2 m b v WC CL2 L2 M5 RC) as H. rewrite Q in H. destruct H as (s3 & H & _).
  unfold UnmarshalByValue. fold m. rewrite H. cbn [bind]. eexists. split; [reflexivity|].
  assert (HL : hp s3 l = hp s l).
  { rewrite (load_kept E G NE _ s2 m b s3 (Some e) WC CL2 L2 M5 H l (LV2 l L)); [exact HL2|lia]. }
  cbn [set_cell hp]. rewrite HL. fold m. set (d := hp s3 m).
  assert (HX : upd (hp s3) l (shared_lists (hp s l) (hp s l) d) l = shared_lists (hp s l) (hp s l) d) by apply upd_same.
  rewrite HX.
  assert (SC : c_dt (hp s l) <> TObject -> c_dt (hp s l) <> TArray -> shared_lists (hp s l) (hp s l) d = hp s l).
  { intros D1 D2. unfold shared_lists. destruct (c_dt (hp s l)); congruence. }
  split; [unfold shared_lists; destruct (c_dt (hp s l)) eqn:D; auto|].
  split; [|split].
  - unfold shared_lists. destruct (c_dt (hp s l)) eqn:D; auto. cbn [w_obj c_kvs]. rewrite overlay_blank, firstn_length, app_length, repeat_length. lia.
  - unfold shared_lists. destruct (c_dt (hp s l)) eqn:D; auto. cbn [w_arr c_arr]. unfold overlay.
    rewrite firstn_length, app_length, skipn_length, map_length. lia.
  - intros N1 N2. assert (D1 : c_dt (hp s l) <> TObject) by (intros D; inversion R; subst; try congruence; apply N1; exact I).
    assert (D2 : c_dt (hp s l) <> TArray) by (intros D; inversion R; subst; try congruence; apply N2; exact I).
    apply (rep_frame (hp s)); [exact R|]. intros x (y & Y & X). injection Y as <-. apply reach_leaf in X.
    + subst x. rewrite HX. apply SC; auto.
    + intros y Y. unfold sees in Y. destruct (c_dt (hp s l)); auto.
Qed.
Print Assumptions C83_failure.
(** It panics exactly where loading into the pointer does. *)
Theorem C83_panic : forall E G s s1 l b v, num_env E -> wf s -> Clear s l = Ok s1 -> live s1 l -> (5 <= l)%nat ->
  rep (hp s) (Some l) v -> (UnmarshalByValue E G s b l = Panic <-> snd (LoadFromJson E v b) = Panic).
Proof.
  intros E G s s1 l b v NE W CL L L5 R.
  assert (LT : (l < nx s)%nat) by (rewrite <- (Clear_nx s l s1 CL); apply L).
  destruct (copy_clear s l s1 W CL L) as (s2 & CL2 & L2 & HL2 & LV2).
  pose proof (copy_wf s l W LT) as WC. pose proof (copy_rep s l v W LT R) as RC.
  assert (M5 : (5 <= nx s)%nat) by lia.
  pose proof (load_json E G NE (copy_of s l) s2 (nx s) b v WC CL2 L2 M5 RC) as H. unfold UnmarshalByValue.
  destruct (LoadFromJson E v b) as [v' [u|e| |]]; cbn [snd].
  - destruct H as (s' & -> & _). cbn [bind]. split; discriminate.
  - destruct H as (s' & -> & _). cbn [bind]. split; discriminate.
  - rewrite H. cbn [bind]. tauto.
  - rewrite H. cbn [bind]. split; discriminate.
Qed.
Print Assumptions C83_panic.

(** A document of three keys unmarshalled into objects of two and of no pairs, and into an array. *)
Definition abc_json : bytes := bs "{""x"":true,""y"":false,""z"":null}".
Definition two_tree : value := VObject true [(bs "a", VInt 0 7); (bs "b", VTrue)].
Example C83_case : exists s1 v', num_env e64 /\ wf recv_st /\ Clear recv_st 5 = Ok s1 /\ live s1 5 /\
  rep (hp recv_st) (Some 5%nat) two_tree /\ LoadFromJson e64 two_tree abc_json = (v', Ok tt) /\
  seen_after two_tree v' = VObject true [(bs "x", VTrue); (bs "y", VFalse)] /\
  ok_map (fun r => (snd r, view 4 (hp (fst r)) (Some 5%nat))) (UnmarshalByValue e64 g0 recv_st abc_json 5) =
    Some (None, Some (VObject true [(bs "x", VTrue); (bs "y", VFalse)])) /\
  ok_map (fun r => (snd r, view 4 (hp (fst r)) (Some 5%nat))) (UnmarshalByValue e64 g0 recv_st (bs "{""x"":true}") 5) =
    Some (None, Some (VObject true [(bs "x", VTrue); ([], VNilP)])) /\
  exists b s2, Marshal e64 9 recv_st (Some 5%nat) = Ok (b, s2) /\ b = bs "{""a"":7,""b"":true}".
Proof.
  destruct (ok_ex (fun s => live_b s 5) (Clear recv_st 5) true) as (s1 & Q1 & Q2); [vm_compute; reflexivity|].
  exists s1. eexists. split; [exact e64_num|]. split; [exact recv_wf|]. split; [exact Q1|]. split; [apply live_of; exact Q2|].
  split; [apply (view_rep 3); vm_compute; reflexivity|]. split; [vm_compute; reflexivity|]. split; [vm_compute; reflexivity|].
  split; [vm_compute; reflexivity|]. split; [vm_compute; reflexivity|].
  assert (X : ok_map fst (Marshal e64 9 recv_st (Some 5%nat)) = Some (bs "{""a"":7,""b"":true}")) by (vm_compute; reflexivity).
  apply ok_ex in X as ([b s2] & X1 & X2). exists b, s2. split; [exact X1|exact X2].
Qed.

(** Two documents that fail: one overwrites the first pair, the other is no document at all. *)
Example C83_failure_case :
  (exists v' e, LoadFromJson e64 two_tree (bs "{""x"":true,2") = (v', Err e)) /\
  ok_map (fun r => (match snd r with Some _ => true | None => false end, view 4 (hp (fst r)) (Some 5%nat))) (UnmarshalByValue e64 g0 recv_st (bs "{""x"":true,2") 5) =
    Some (true, Some (VObject true [(bs "x", VTrue); ([], VNilP)])) /\
  ok_map (fun r => (match snd r with Some _ => true | None => false end, view 4 (hp (fst r)) (Some 6%nat))) (UnmarshalByValue e64 g0 recv_st (bs "?") 6) =
    Some (true, Some (VInt 0 7)).
Proof. split; [do 2 eexists; vm_compute; reflexivity|]. split; vm_compute; reflexivity. Qed.

(** An [Unmarshal] that reports no error and stores nothing: into the struct of a new object.  Into the struct
    of a filled one it stores a part, and what it leaves makes a later call fail: [SetKey("",t)] finds the
    empty key without a value and panics. *)
Definition new_st : st := st_of e64 g0 [ONewObject].
Theorem C83_refuted : wf new_st /\ wf recv_st /\
  view 3 (hp new_st) (Some 5%nat) = Some (VObject false []) /\
  ok_map (fun r => (snd r, view 3 (hp (fst r)) (Some 5%nat))) (UnmarshalByValue e64 g0 new_st abc_json 5) = Some (None, Some (VObject false [])) /\
  ok_map (fun r => (snd r, view 3 (hp (fst r)) (Some 5%nat))) (Unmarshal e64 g0 new_st abc_json 5) =
    Some (None, Some (VObject false [(bs "x", VTrue); (bs "y", VFalse); (bs "z", VNull)])) /\
  exists s', UnmarshalByValue e64 g0 recv_st (bs "{""x"":true}") 5 = Ok (s', None) /\ SetKey e64 g0 s' 5 [] TInt = Panic.
Proof.
  split; [apply st_of_wf; vm_compute; reflexivity|]. split; [exact recv_wf|]. split; [vm_compute; reflexivity|].
  split; [vm_compute; reflexivity|]. split; [vm_compute; reflexivity|].
  assert (X : ok_map (fun r => (snd r, match SetKey e64 g0 (fst r) 5 [] TInt with Panic => true | _ => false end))
    (UnmarshalByValue e64 g0 recv_st (bs "{""x"":true}") 5) = Some (None, true)) by (vm_compute; reflexivity).
  apply ok_ex in X as ([s' o] & X1 & X2). cbn [fst snd] in X2. apply pair_equal_spec in X2 as [-> X2].
  exists s'. split; [exact X1|]. destruct (SetKey e64 g0 s' 5 [] TInt); try discriminate X2. reflexivity.
Qed.
Print Assumptions C83_refuted.
