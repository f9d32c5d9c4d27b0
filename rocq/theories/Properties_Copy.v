(** Properties C77, C78: [AddFrom] and [CopyFrom].  Each theorem is followed by what it assumes and by a
    concrete case. *)
From Coq Require Import String.
From Verif Require Import Base Values Tactics Env0 HeapModel HeapSpec HeapBase HeapConf HeapGet
  ApiSpec HeapMap HeapCalls HeapObj HeapArr HeapForce HeapClone HeapEqual HeapMono HeapMerge HeapMergeObj HeapView HeapCopy
  Properties_Map Properties_Heap Properties_Clone Properties_Merge.

(** ** C77 *)
(** [l.AddFrom(m, c)] appends copies of the pairs, or items, of [m] to [l], and sets [l]'s flag to that of
    [m].  Nothing else in use changes; what it adds to [l] are cells not in use before and the shared
    constants.  [m] may lie inside [l], but not [l] inside [m]. *)
Theorem C77_object : forall G s l m c u kl um km, wf s -> ok_cache none_set s c -> plive s (Some l) -> from_graph s m ->
  ~ reach (hp s) m l ->
  rep (hp s) (Some l) (VObject u kl) -> rep (hp s) (Some m) (VObject um km) -> clonable (VObject um km) ->
  exists n0, forall fuel, (n0 <= fuel)%nat -> exists s', AddFrom G fuel s l m c = Ok s' /\ wf s' /\
    rep (hp s') (Some l) (VObject um (kl ++ map (fun kv => (fst kv, strip (snd kv))) km)) /\ grows s l s'.
Proof. exact AddFrom_object. Qed.
Print Assumptions C77_object.
Theorem C77_array : forall G s l m c vl vm, wf s -> plive s (Some l) -> from_graph s m -> ~ reach (hp s) m l ->
  rep (hp s) (Some l) (VArray vl) -> rep (hp s) (Some m) (VArray vm) -> clonable (VArray vm) ->
  exists n0, forall fuel, (n0 <= fuel)%nat -> exists s', AddFrom G fuel s l m c = Ok s' /\ wf s' /\
    rep (hp s') (Some l) (VArray (vl ++ map strip vm)) /\ grows s l s'.
Proof. exact AddFrom_array. Qed.
Print Assumptions C77_array.

(** [{"a":7,"b":true}] gets [{"A":"x","c":[null]}]. *)
Example C77_case :
  wf merge_st /\ ok_cache none_set merge_st (Some 0%nat) /\ plive merge_st (Some 5%nat) /\ from_graph merge_st 14 /\
  ~ reach (hp merge_st) 14 5 /\ view 4 (hp merge_st) (Some 5%nat) = Some left_value /\
  view 4 (hp merge_st) (Some 14%nat) = Some (VObject true right_pairs) /\ clonable (VObject true right_pairs) /\
  exists s', AddFrom g0 9 merge_st 5 14 (Some 0%nat) = Ok s' /\
    view 4 (hp s') (Some 5%nat) = Some (VObject true [(bs "a", VInt 0 7); (bs "b", VTrue); (bs "A", VString (bs "x")); (bs "c", VArray [VNull])]).
Proof.
  split; [exact merge_wf|]. split. { intros k Q. assert (k = 0%nat) as -> by congruence. split; [vm_compute; lia|intros []]. }
  split. { intros x (y & Q & X). injection Q as <-. apply merge_reach_l in X. repeat destruct X as [<-|X]; try (destruct X); apply live_of; vm_compute; reflexivity. }
  split. { split; [apply live_of; vm_compute; reflexivity|]. intros y Y x X.
    assert (R : reach (hp merge_st) 14 x) by (eapply reach_trans; [apply reach_child; exact Y|exact X]).
    apply merge_reach_m in R. destruct R as [<-|[<-|[<-|[<-|[]]]]];
    (split; [apply live_of; vm_compute; reflexivity|]); intros Cd; try lia; exfalso; apply Cd; vm_compute; reflexivity. }
  split. { intros X. apply merge_reach_m in X. cbn in X. lia. }
  split; [vm_compute; reflexivity|]. split; [vm_compute; reflexivity|]. split; [cbn; auto|].
  apply ok_ex. vm_compute. reflexivity.
Qed.

(** Keys are not compared: an object gets a second pair for a key it has, and a lookup does not find it. *)
Definition twice_ops : list op := [ONewObject; OSetKey 5 (bs "a") TInt; ONewObject; OSetKey 14 (bs "a") TString].
Theorem C77_keys_refuted : forall ic, let E := env0 ic in let s := st_of E g0 twice_ops in
  runs E g0 none_set st0 twice_ops s /\
  view 3 (hp s) (Some 5%nat) = Some (VObject true [(bs "a", VInt 0 0)]) /\
  view 3 (hp s) (Some 14%nat) = Some (VObject true [(bs "a", VString [])]) /\
  exists s', AddFrom g0 9 s 5 14 None = Ok s' /\
    (view 3 (hp s') (Some 5%nat), fst (ValueByName E s' 5 (bs "a"))) = (Some (VObject true [(bs "a", VInt 0 0); (bs "a", VString [])]), Some 6%nat).
Proof.
  intros ic E s. split. { apply st_of_runs; destruct ic; vm_compute; reflexivity. }
  split; [destruct ic; vm_compute; reflexivity|]. split; [destruct ic; vm_compute; reflexivity|].
  apply ok_ex. destruct ic; vm_compute; reflexivity.
Qed.
Print Assumptions C77_keys_refuted.
(** The flag says of all keys whether their escapes are resolved, and is overwritten: a pair that could be
    found under its key cannot be any more. *)
Definition flag_ops : list op := [OFromJson None (bs "{""a\\"":1}"); ONewObject; OSetKey 13 (bs "b") TInt].
Theorem C77_flag_refuted : forall ic, let E := env0 ic in let s := st_of E g0 flag_ops in
  runs E g0 none_set st0 flag_ops s /\
  view 3 (hp s) (Some 5%nat) = Some (VObject false [(bs "a\\", VInt 0 1)]) /\
  view 3 (hp s) (Some 13%nat) = Some (VObject true [(bs "b", VInt 0 0)]) /\
  fst (ValueByName E s 5 (bs "a\")) = Some 6%nat /\
  exists s', AddFrom g0 9 s 5 13 None = Ok s' /\ fst (ValueByName E s' 5 (bs "a\")) = None.
Proof.
  intros ic E s. split. { apply st_of_runs; destruct ic; vm_compute; reflexivity. }
  split; [destruct ic; vm_compute; reflexivity|]. split; [destruct ic; vm_compute; reflexivity|].
  split; [destruct ic; vm_compute; reflexivity|].
  apply ok_ex. destruct ic; vm_compute; reflexivity.
Qed.
Print Assumptions C77_flag_refuted.
(** [v.AddFrom(v, c)] does not return, unless [v] has nothing to add. *)
Theorem C77_self_refuted : forall G s l c v, wf s -> live s l -> ok_cache none_set s c -> rep (hp s) (Some l) v ->
  (exists u kv r, v = VObject u (kv :: r)) \/ (exists x r, v = VArray (x :: r)) ->
  forall fuel s', AddFrom G fuel s l l c <> Ok s'.
Proof. exact AddFrom_self. Qed.
Print Assumptions C77_self_refuted.
Example C77_self_case : wf merge_st /\ live merge_st 5 /\ ok_cache none_set merge_st None /\
  rep (hp merge_st) (Some 5%nat) left_value /\ AddFrom g0 50 merge_st 5 5 None = OutOfFuel.
Proof.
  split; [exact merge_wf|]. split; [apply live_of; vm_compute; reflexivity|]. split; [intros k Q; discriminate Q|].
  split; [apply (view_rep 3); vm_compute; reflexivity|]. vm_compute. reflexivity.
Qed.

(** ** C78 *)
(** [l.CopyFrom(m, c)] makes [l] a copy of [m], whatever [l] held; nothing else in use changes, and what [l]
    then consists of are new cells and the shared constants.  [m] may lie inside [l]. *)
Theorem C78_content : forall G s l m c v, wf s -> ok_cache none_set s c -> live s l -> (5 <= l)%nat -> from_graph s m ->
  ~ reach (hp s) m l -> rep (hp s) (Some m) v -> clonable v ->
  exists n0, forall fuel, (n0 <= fuel)%nat -> exists s', CopyFrom G fuel s l m c = Ok s' /\ wf s' /\
    rep (hp s') (Some l) (strip v) /\ replaces s l s'.
Proof. exact CopyFrom_content. Qed.
Print Assumptions C78_content.

(** The array [[null]] inside [{"A":"x","c":[null]}] is copied over that object. *)
Example C78_case :
  wf merge_st /\ ok_cache none_set merge_st None /\ live merge_st 14 /\ from_graph merge_st 23 /\ ~ reach (hp merge_st) 23 14 /\
  sees (hp merge_st 14) 23 /\ rep (hp merge_st) (Some 23%nat) (VArray [VNull]) /\ clonable (VArray [VNull]) /\
  exists s', CopyFrom g0 9 merge_st 14 23 None = Ok s' /\ view 3 (hp s') (Some 14%nat) = Some (VArray [VNull]).
Proof.
  assert (RM : forall x, reach (hp merge_st) 23 x -> In x [23; 2]%nat) by (apply reach_in; [left; reflexivity|vm_compute; reflexivity]).
  split; [exact merge_wf|]. split; [intros k Q; discriminate Q|]. split; [apply live_of; vm_compute; reflexivity|].
  split. { split; [apply live_of; vm_compute; reflexivity|]. intros y Y x X.
    assert (R : reach (hp merge_st) 23 x) by (eapply reach_trans; [apply reach_child; exact Y|exact X]).
    apply RM in R. destruct R as [<-|[<-|[]]];
    (split; [apply live_of; vm_compute; reflexivity|]); intros Cd; try lia; exfalso; apply Cd; vm_compute; reflexivity. }
  split. { intros X. apply RM in X. cbn in X. lia. }
  split; [vm_compute; auto|]. split; [apply (view_rep 3); vm_compute; reflexivity|]. split; [cbn; auto|].
  apply ok_ex. vm_compute. reflexivity.
Qed.

(** Binary content is not copied, nor is the extension type. *)
Theorem C78_binary_refuted : forall G s l m c e b fuel, wf s -> live s l -> (5 <= l)%nat -> m <> l -> rep (hp s) (Some m) (VBinary e b) ->
  exists s', CopyFrom G fuel s l m c = Ok s' /\ rep (hp s') (Some l) (VBinary 0 []).
Proof.
  intros G s l m c e b fuel W L L5 NE R. inversion R as [| | | | | | | | |? D| | | | | |]; subst. unfold CopyFrom. rewrite D. cbv zeta.
  unfold Reset. destruct (ReadOnly l) eqn:RO; [unfold ReadOnly in RO; apply Nat.ltb_lt in RO; lia|].
  cbn [set_cell hp]. rewrite upd_same. cbn [reset_cell c_dt vt_code Z.leb Z.compare Pos.compare Pos.compare_cont andb].
  eexists. split; [reflexivity|].
  match goal with |- rep ?h0 _ _ => assert (U : h0 l = reset_cell (hp s l) TBinary) by (cbn [set_cell hp]; apply upd_same);
    generalize dependent h0; intros h U end.
  replace (VBinary 0 []) with (VBinary (c_ext (h l)) (c_bin (h l))) by (rewrite U; reflexivity).
  apply rep_bin. rewrite U. reflexivity.
Qed.
Print Assumptions C78_binary_refuted.
(** Copying an object to itself empties it. *)
Theorem C78_self_refuted : forall G s l c u kvs fuel, wf s -> rep (hp s) (Some l) (VObject u kvs) ->
  exists s', CopyFrom G (S fuel) s l l c = Ok s' /\ rep (hp s') (Some l) (VObject false []).
Proof.
  intros G s l c u kvs fuel W R. inversion R as [|? ? D F2| | | | | | | | | | | | | |]; subst.
  assert (L5 : (5 <= l)%nat) by (eapply good_5; eauto).
  unfold CopyFrom. rewrite D. cbv zeta.
  unfold Reset. destruct (ReadOnly l) eqn:RO; [unfold ReadOnly in RO; apply Nat.ltb_lt in RO; lia|].
  unfold AddFrom. cbn [set_cell hp]. rewrite !upd_same. rewrite dt_reset. cbv zeta. rewrite add_kvs_S. cbn [set_cell hp]. rewrite !upd_same.
  cbn [w_obj c_kvs]. rewrite kvs_reset. cbn [nth_error]. eexists. split; [reflexivity|].
  apply rep_obj_intro; cbn [set_cell hp]; rewrite !upd_same; [reflexivity|reflexivity|]. constructor.
Qed.
Print Assumptions C78_self_refuted.
Example C78_self_case : exists s', CopyFrom g0 9 merge_st 5 5 None = Ok s' /\
  (view 3 (hp merge_st) (Some 5%nat), view 3 (hp s') (Some 5%nat)) = (Some left_value, Some (VObject false [])).
Proof. apply ok_ex. vm_compute. reflexivity. Qed.
