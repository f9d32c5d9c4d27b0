(** Property C37, objects and arrays inside objects: [MergeWith] goes down into the first container of the
    receiver that the argument has a value for, and does not come back for the rest. *)
From Coq Require Import String.
From Verif Require Import Base Values Tactics Env0 HeapModel HeapSpec HeapBase HeapConf HeapGet
  ApiSpec HeapMap HeapCalls HeapObj HeapArr HeapForce HeapClone HeapEqual HeapMono HeapMerge HeapMergeObj HeapMergeDeep
  Properties_Map Properties_Heap Properties_Clone Properties_Merge.

(** ** C37, nested objects *)
(** The whole outcome: the entries in front of the first collision with an object or array are united; two
    objects are merged in the same way, any other container stays as it is; the argument's entries after it are dropped.  The argument keeps
    its content and nothing outside the receiver's graph changes. *)
Theorem C37_nested : forall E G s l m u vs u' ws, env_ok E -> wf s ->
  rep (hp s) (Some l) (VObject u vs) -> rep (hp s) (Some m) (VObject u' ws) ->
  plive s (Some l) -> cloneable_graph s m -> deep_sep s l -> no_leftovers s m -> (forall x, reach (hp s) l x -> reach (hp s) m x -> (x < 5)%nat) ->
  distinct_keys (key_match E) (unescape_keys E u vs) -> distinct_keys (key_match E) ws -> Forall (fun kv => clonable (snd kv)) ws ->
  nestable E (unescape_keys E u vs) ws ->
  exists n0, forall fuel, (n0 <= fuel)%nat -> exists s' u1 vs1,
    MergeWith E G fuel s (Some l) (Some m) None = Ok s' /\ wf s' /\
    rep (hp s') (Some l) (VObject u1 vs1) /\ deep_merge E (unescape_keys E u vs) ws (unescape_keys E u1 vs1) /\
    rep (hp s') (Some m) (VObject u' ws) /\
    (forall x, live s x -> live s' x) /\ (forall x, live s x -> ~ reach (hp s) l x -> hp s' x = hp s x).
Proof. intros E G s l m u vs u' ws EO. exact (merge_nested E G EO s l m u vs u' ws). Qed.
Print Assumptions C37_nested.

(** The keys of the outcome. *)
Lemma split_same {A} (P : A -> Prop) : forall a x b a' x' b', a ++ x :: b = a' ++ x' :: b' ->
  Forall P a -> Forall P a' -> ~ P x -> ~ P x' -> a = a'.
Proof.
  induction a as [|y a IH]; intros x b [|y' a'] x' b' H FA FA' NX NX'; cbn [app] in H; auto; injection H as H0 H1.
  - exfalso. apply NX. rewrite H0. exact (Forall_inv FA').
  - exfalso. apply NX'. rewrite <- H0. exact (Forall_inv FA).
  - subst y'. f_equal. eapply IH; eauto; [exact (Forall_inv_tail FA)|exact (Forall_inv_tail FA')].
Qed.
Lemma hits_container E v k idx k0 old (x : value) : find_key E v k = Some idx -> nth_error v idx = Some (k0, old) -> container old ->
  ~ (forall kv, In kv v -> key_match E (fst kv) (fst (k, x)) = true -> scalar (snd kv)).
Proof.
  intros FK NV CO H. apply (find_key_some E) in FK as (k1 & y & Q & SM). pose proof (eq_trans (eq_sym NV) Q) as QQ. injection QQ as <- <-.
  pose proof (H (k0, old) (nth_error_In _ _ NV) SM) as SO. cbn [snd] in SO. destruct old; contradiction.
Qed.
Lemma before E v pre : scalars_only E v pre -> Forall (fun kw => forall kv, In kv v -> key_match E (fst kv) (fst kw) = true -> scalar (snd kv)) pre.
Proof. intros SC. apply Forall_forall. intros kw I kv J. exact (SC kv kw J I). Qed.
Lemma deep_merge_keys E v w r : deep_merge E v w r -> forall pre k x post idx k0 old, w = pre ++ (k, x) :: post -> scalars_only E v pre ->
  find_key E v k = Some idx -> nth_error v idx = Some (k0, old) -> container old -> map fst r = map fst (union (key_match E) v pre).
Proof.
  intros DM pre k x post idx k0 old Q SC FK NV CO. pose proof (hits_container E v k idx k0 old x FK NV CO) as HO.
  destruct DM as [v w SC2|v pre2 k2 u2' new2 post2 idx2 k02 u2 old2 r2 u12 r12 SC2 FK2 NV2 DM2 UR2|v pre2 k2 x2 post2 idx2 k02 old2 SC2 FK2 NV2 CO2 NX2].
  - exfalso. apply HO. intros kv I SM. apply (SC2 kv (k, x) I); [|exact SM]. rewrite Q. apply in_or_app. right. left. reflexivity.
  - pose proof (hits_container E v k2 idx2 k02 _ (VObject u2' new2) FK2 NV2 I) as HO2.
    rewrite map_fst_set_val. f_equal. f_equal.
    exact (split_same _ _ _ _ _ _ _ Q (before _ _ _ SC2) (before _ _ _ SC) HO2 HO).
  - pose proof (hits_container E v k2 idx2 k02 _ x2 FK2 NV2 CO2) as HO2. f_equal. f_equal.
    exact (split_same _ _ _ _ _ _ _ Q (before _ _ _ SC2) (before _ _ _ SC) HO2 HO).
Qed.

(** So no key of the argument that follows the first collision with a container and is new to the receiver arrives. *)
Theorem C37_nested_lost_refuted : forall E G s l m u vs u' pre k x post idx k0 old, env_ok E -> wf s ->
  let ws := pre ++ (k, x) :: post in let v := unescape_keys E u vs in
  rep (hp s) (Some l) (VObject u vs) -> rep (hp s) (Some m) (VObject u' ws) ->
  plive s (Some l) -> cloneable_graph s m -> deep_sep s l -> no_leftovers s m -> (forall x, reach (hp s) l x -> reach (hp s) m x -> (x < 5)%nat) ->
  distinct_keys (key_match E) v -> distinct_keys (key_match E) ws -> Forall (fun kv => clonable (snd kv)) ws ->
  scalars_only E v pre -> find_key E v k = Some idx -> nth_error v idx = Some (k0, old) -> container old ->
  nestable E v ws ->
  exists n0, forall fuel, (n0 <= fuel)%nat -> exists s' u1 vs1,
    MergeWith E G fuel s (Some l) (Some m) None = Ok s' /\ rep (hp s') (Some l) (VObject u1 vs1) /\
    forall kw, In kw post -> (forall kv, In kv v -> key_match E (fst kv) (fst kw) = false) ->
      forall kv, In kv (unescape_keys E u1 vs1) -> key_match E (fst kv) (fst kw) = false.
Proof.
  intros E G s l m u vs u' pre k x post idx k0 old EO W ws v RL RM PL CG DS NL DIS DV DW CL SC FK NV CO NE.
  destruct (C37_nested E G s l m u vs u' ws EO W RL RM PL CG DS NL DIS DV DW CL NE) as (n0 & H). exists n0. intros fuel Fu.
  destruct (H fuel Fu) as (s' & u1 & vs1 & Q & _ & R & DM & _). exists s', u1, vs1. split; [exact Q|]. split; [exact R|].
  intros kw IW NVK kv IV. pose proof (deep_merge_keys E _ _ _ DM pre k x post idx k0 old eq_refl SC FK NV CO) as KS.
  apply (in_map fst) in IV. rewrite KS in IV. unfold union in IV. rewrite map_app, !map_map in IV. cbn [fst] in IV.
  apply in_app_or in IV as [IV|IV]; apply in_map_iff in IV as (kx & Q' & I); rewrite <- Q'.
  - apply NVK, I.
  - apply filter_In in I as [I _]. clear - DW I IW. unfold ws in DW. unfold distinct_keys in DW. induction pre as [|y pre IH]; [destruct I|].
    cbn [app] in DW. inversion DW as [|? ? H1 H2]; subst. destruct I as [->|I]; [|auto]. rewrite Forall_forall in H1. apply H1.
    apply in_or_app. right. right. exact IW.
Qed.
Print Assumptions C37_nested_lost_refuted.

(** [{"a":7,"o":{"x":1}}] merged with [{"A":"x","b":0,"o":{"y":2},"z":0}] is
    [{"a":[7,"x"],"o":{"x":1,"y":2},"b":0}], without [z]. *)
Definition deep_ops : list op :=
  [ONewObject; OSetKey 5 (bs "a") TInt; OSetInt 6 7; OSetKey 5 (bs "o") TObject; OSetKey 14 (bs "x") TInt; OSetInt 15 1;
   ONewObject; OSetKey 22 (bs "A") TString; OSetString 23 (bs "x"); OSetKey 22 (bs "b") TInt;
   OSetKey 22 (bs "o") TObject; OSetKey 39 (bs "y") TInt; OSetInt 40 2; OSetKey 22 (bs "z") TInt].
Definition deep_st : st := st_of e1 g0 deep_ops.
Definition deep_left : list (bytes * value) := [(bs "a", VInt 0 7); (bs "o", VObject true [(bs "x", VInt 0 1)])].
Definition deep_right : list (bytes * value) :=
  [(bs "A", VString (bs "x")); (bs "b", VInt 0 0); (bs "o", VObject true [(bs "y", VInt 0 2)]); (bs "z", VInt 0 0)].
Definition deep_result : list (bytes * value) :=
  [(bs "a", VArray [VInt 0 7; VString (bs "x")]); (bs "o", VObject true [(bs "x", VInt 0 1); (bs "y", VInt 0 2)]); (bs "b", VInt 0 0)].
Lemma reach_l x : reach (hp deep_st) 5 x -> In x [5; 6; 14; 15]%nat.
Proof. apply reach_in; [left; reflexivity|vm_compute; reflexivity]. Qed.
Lemma reach_m x : reach (hp deep_st) 22 x -> In x [22; 23; 31; 39; 40; 47]%nat.
Proof. apply reach_in; [left; reflexivity|vm_compute; reflexivity]. Qed.
Example C37_nested_case :
  wf deep_st /\ rep (hp deep_st) (Some 5%nat) (VObject true deep_left) /\ rep (hp deep_st) (Some 22%nat) (VObject true deep_right) /\
  plive deep_st (Some 5%nat) /\ cloneable_graph deep_st 22 /\ deep_sep deep_st 5 /\ no_leftovers deep_st 22 /\
  (forall x, reach (hp deep_st) 5 x -> reach (hp deep_st) 22 x -> (x < 5)%nat) /\
  distinct_keys (key_match e1) deep_left /\ distinct_keys (key_match e1) deep_right /\ Forall (fun kv => clonable (snd kv)) deep_right /\
  unescape_keys e1 true deep_left = deep_left /\ nestable e1 deep_left deep_right /\ deep_merge e1 deep_left deep_right deep_result /\
  exists s', MergeWith e1 g0 9 deep_st (Some 5%nat) (Some 22%nat) None = Ok s' /\
    (map fst (c_kvs (hp s' 5)), map fst (c_kvs (hp s' 14)), c_dt (hp s' 6)) = ([bs "a"; bs "o"; bs "b"], [bs "x"; bs "y"], TArray).
Proof.
  split. { apply st_of_wf; vm_compute; reflexivity. }
  split. { apply rep_obj_intro; [vm_compute; reflexivity|vm_compute; reflexivity|].
    replace (c_kvs (hp deep_st 5)) with [(bs "a", Some 6%nat); (bs "o", Some 14%nat)] by (vm_compute; reflexivity).
    constructor; [split; [reflexivity|]|constructor; [split; [reflexivity|]|constructor]]; cbn [snd].
    - eapply int_at; vm_compute; reflexivity.
    - apply rep_obj_intro; [vm_compute; reflexivity|vm_compute; reflexivity|].
      replace (c_kvs (hp deep_st 14)) with [(bs "x", Some 15%nat)] by (vm_compute; reflexivity).
      constructor; [split; [reflexivity|]|constructor]. eapply int_at; vm_compute; reflexivity. }
  split. { apply rep_obj_intro; [vm_compute; reflexivity|vm_compute; reflexivity|].
    replace (c_kvs (hp deep_st 22)) with [(bs "A", Some 23%nat); (bs "b", Some 31%nat); (bs "o", Some 39%nat); (bs "z", Some 47%nat)] by (vm_compute; reflexivity).
    constructor; [split; [reflexivity|]|constructor; [split; [reflexivity|]|constructor; [split; [reflexivity|]|constructor; [split; [reflexivity|]|constructor]]]]; cbn [snd].
    - apply str_at; vm_compute; reflexivity.
    - eapply int_at; vm_compute; reflexivity.
    - apply rep_obj_intro; [vm_compute; reflexivity|vm_compute; reflexivity|].
      replace (c_kvs (hp deep_st 39)) with [(bs "y", Some 40%nat)] by (vm_compute; reflexivity).
      constructor; [split; [reflexivity|]|constructor]. eapply int_at; vm_compute; reflexivity.
    - eapply int_at; vm_compute; reflexivity. }
  split. { intros x (y & Q & X). injection Q as <-. apply reach_l in X. repeat destruct X as [<-|X]; try (destruct X); apply live_of; vm_compute; reflexivity. }
  split. { intros x X. apply reach_m in X. repeat destruct X as [<-|X]; try (destruct X);
    (split; [apply live_of; vm_compute; reflexivity|]); intros C; try lia; exfalso; apply C; vm_compute; reflexivity. }
  split. { intros x X DX i j p q NE Qi Qj. apply reach_l in X.
    assert (AA : forall y, reach (hp deep_st) 6 y -> In y [6%nat]) by (apply reach_in; [left; reflexivity|vm_compute; reflexivity]).
    assert (BB : forall y, reach (hp deep_st) 14 y -> In y [14; 15]%nat) by (apply reach_in; [left; reflexivity|vm_compute; reflexivity]).
    destruct X as [<-|[<-|[<-|[<-|[]]]]]; try (vm_compute in DX; discriminate DX).
    - assert (EN : entries deep_st 5 = [Some 6%nat; Some 14%nat]) by (vm_compute; reflexivity). rewrite EN in Qi, Qj. clear EN.
      destruct i as [|[|i]], j as [|[|j]]; cbn in Qi, Qj; try (exfalso; exact (NE eq_refl)); try (destruct i; discriminate); try (destruct j; discriminate);
        injection Qi as <-; injection Qj as <-; intros y (a & Qa & Y) (b & Qb & Z); injection Qa as <-; injection Qb as <-; exfalso.
      + apply AA in Y. apply BB in Z. cbn in Y, Z. lia.
      + apply BB in Y. apply AA in Z. cbn in Y, Z. lia.
    - assert (EN : entries deep_st 14 = [Some 15%nat]) by (vm_compute; reflexivity). rewrite EN in Qi, Qj. clear EN.
      destruct i as [|i], j as [|j]; cbn in Qi, Qj; try (exfalso; exact (NE eq_refl)); try (destruct i; discriminate); destruct j; discriminate. }
  split. { assert (DM : c_dt (hp deep_st 22) = TObject) by (vm_compute; reflexivity). intros p x I X DX. pose proof (see deep_st 22 p x DM I X) as Y. clear I X.
    apply reach_m in Y. repeat destruct Y as [<-|Y]; try (destruct Y); try (exfalso; apply DX; vm_compute; reflexivity); vm_compute; reflexivity. }
  split. { intros x X Y. apply reach_l in X. apply reach_m in Y. cbn in X, Y. lia. }
  split. { repeat (constructor; [repeat constructor|]). constructor. }
  split. { repeat (constructor; [repeat constructor|]). constructor. }
  split. { repeat constructor. }
  split; [vm_compute; reflexivity|].
  assert (SC : scalars_only e1 deep_left [(bs "A", VString (bs "x")); (bs "b", VInt 0 0)]).
  { intros kv kw I J. destruct I as [<-|[<-|[]]]; [intros _; exact Logic.I|]. destruct J as [<-|[<-|[]]]; vm_compute; discriminate. }
  assert (SI : scalars_only e1 (unescape_keys e1 true [(bs "x", VInt 0 1)]) [(bs "y", VInt 0 2)]).
  { intros kv kw I J. destruct I as [<-|[]]. intros _. exact Logic.I. }
  assert (D1 : distinct_keys (key_match e1) (unescape_keys e1 true [(bs "x", VInt 0 1)])).
  { replace (unescape_keys e1 true [(bs "x", VInt 0 1)]) with [(bs "x", VInt 0 1)] by (vm_compute; reflexivity). repeat constructor. }
  assert (D2 : distinct_keys (key_match e1) [(bs "y", VInt 0 2)]) by repeat constructor.
  assert (FK : find_key e1 deep_left (bs "o") = Some 1%nat) by (vm_compute; reflexivity).
  split. { exact (mg_nested e1 deep_left [(bs "A", VString (bs "x")); (bs "b", VInt 0 0)] (bs "o") true [(bs "y", VInt 0 2)] [(bs "z", VInt 0 0)] 1%nat (bs "o") true [(bs "x", VInt 0 1)]
      SC FK eq_refl D1 D2 (mg_flat _ _ _ SI)). }
  split. { assert (UR : unescape_keys e1 true [(bs "x", VInt 0 1); (bs "y", VInt 0 2)] = union (key_match e1) (unescape_keys e1 true [(bs "x", VInt 0 1)]) [(bs "y", VInt 0 2)]) by (vm_compute; reflexivity).
    pose proof (dm_nested e1 deep_left [(bs "A", VString (bs "x")); (bs "b", VInt 0 0)] (bs "o") true [(bs "y", VInt 0 2)] [(bs "z", VInt 0 0)] 1%nat (bs "o") true [(bs "x", VInt 0 1)]
      _ true [(bs "x", VInt 0 1); (bs "y", VInt 0 2)] SC FK eq_refl (dm_flat _ _ _ SI) UR) as D.
    replace deep_result with (set_val 1 (VObject true [(bs "x", VInt 0 1); (bs "y", VInt 0 2)]) (union (key_match e1) deep_left [(bs "A", VString (bs "x")); (bs "b", VInt 0 0)]))
      by (vm_compute; reflexivity). exact D. }
  apply ok_ex. vm_compute. reflexivity.
Qed.

(** [{"l":[7]}] merged with [{"l":[8],"z":0}] stays as it is. *)
Definition stop_ops : list op :=
  [ONewObject; OSetKey 5 (bs "l") TArray; OSetIndex 6 0 TInt; OSetInt 7 7; ONewObject; OSetKey 14 (bs "l") TArray; OSetIndex 15 0 TInt; OSetInt 16 8; OSetKey 14 (bs "z") TInt].
Example C37_stop_case : let v := [(bs "l", VArray [VInt 0 7])] in let w := [(bs "l", VArray [VInt 0 8]); (bs "z", VInt 0 0)] in
  nestable e1 v w /\ deep_merge e1 v w v /\
  let s := st_of e1 g0 stop_ops in (c_dt (hp s 5), c_dt (hp s 14), map fst (c_kvs (hp s 14))) = (TObject, TObject, [bs "l"; bs "z"]) /\
  exists s', MergeWith e1 g0 9 s (Some 5%nat) (Some 14%nat) None = Ok s' /\ map fst (c_kvs (hp s' 5)) = [bs "l"].
Proof.
  intros v w. assert (SC : scalars_only e1 v []) by (intros kv kw _ []).
  assert (FK : find_key e1 v (bs "l") = Some O) by (vm_compute; reflexivity).
  split; [exact (mg_stop e1 v [] (bs "l") (VArray [VInt 0 8]) [(bs "z", VInt 0 0)] O (bs "l") _ SC FK eq_refl I I)|].
  split; [exact (dm_stop e1 v [] (bs "l") (VArray [VInt 0 8]) [(bs "z", VInt 0 0)] O (bs "l") _ SC FK eq_refl I I)|].
  split; [vm_compute; reflexivity|]. apply ok_ex. vm_compute. reflexivity.
Qed.
