(** Property C84: [NewValueFrom]. *)
From Coq Require Import String.
From Verif Require Import Base Values Tactics Env0 HeapModel MsgLoadModel ReflectModel HeapSpec MsgLoadSpec ReflectSpec HeapBase HeapConf
  HeapGet HeapCalls HeapForce HeapTree HeapClone HeapMerge HeapEqual HeapCopy HeapMap HeapBuild MsgLoadThms ReflectThms ReflectPerm ReflectRoot HeapView Properties_Map Properties_Merge Properties_MsgLoad.
Local Notation shows := MsgLoadSpec.shows.
Local Notation N := none_set.

(** ** The slot *)
Lemma slot_ok G s cached l s1 : wf s -> new_slot G s cached = (l, s1) ->
  wf s1 /\ live s1 l /\ (5 <= l)%nat /\ ~ live s l /\ (forall x, live s x -> hp s1 x = hp s x /\ live s1 x) /\
  clean (hp s1 l) (match cached with Some _ => TInt | None => TObject end).
Proof.
  intros W H. destruct cached as [ch|]; cbn [new_slot] in H.
  - cbn [NewCacheValue] in H. destruct (cache_of_same G s (Some ch) W) as (HP & LV & LV' & W1 & OC). cbn [cache_of fst snd] in *.
    destruct (getCache s ch) as [k s0] eqn:GC. cbn [fst snd] in *.
    destruct (get_base G s0 (Some k) TInt l s1 W1 OC H) as [B C].
    split. { apply (b_tr _ _ _ _ B N N W1 OC). }
    split; [apply (b_live _ _ _ _ B)|]. split; [apply (b_5 _ _ _ _ B)|].
    split. { intros L. apply (b_new _ _ _ _ B). apply LV, L. }
    split; [|exact C]. intros x L. apply LV in L. split; [rewrite (b_frame _ _ _ _ B) by auto; rewrite HP; reflexivity|apply (b_lives _ _ _ _ B); exact L].
  - injection H as <- <-. pose proof (i_nx _ _ _ W) as N5.
    destruct (tr_new N N s zero_cell W) as [T O]; [intros x; apply child_zero|reflexivity|].
    split; [apply T|]. split.
    { split; cbn [nx nc cs]; [lia|]. intros k K X. apply In_skipn in X.
      destruct (i_cache _ _ _ W k K) as (_ & _ & _ & F). rewrite Forall_forall in F. apply F in X. lia. }
    split; [lia|]. split; [intros [L _]; lia|]. split.
    + intros x [L1 L2]. cbn [hp]. split; [apply upd_other; lia|]. split; [cbn [nx]; lia|exact L2].
    + cbn [hp]. rewrite upd_same. repeat split; reflexivity.
Qed.

(** ** C84 *)
(** [NewValueFrom(g, cached)] for a Go value that the import keeps, in any state, whatever the cache that
    the pool hands out held before: the result reads as the tree of [g] (nothing else is asked of [g] here,
    unlike C62), it is a new value made of new cells, no cell of it but the shared constants is met on two
    paths, and nothing in use changes. *)
Theorem C84_content : forall E G s cached g, wf s -> root_kept E g ->
  exists l s', NewValueFrom E G s cached g = Ok (l, s') /\ wf s' /\ shows (hp s') (Some l) (goal E g) /\
    (forall x, live s x -> hp s' x = hp s x /\ live s' x) /\
    (forall x, reach (hp s') l x -> (x < 5)%nat \/ (~ live s x /\ live s' x)) /\ treelike (hp s') l.
Proof.
  intros E G s cached g W K. unfold NewValueFrom. destruct (new_slot G s cached) as [l s1] eqn:NS.
  destruct (slot_ok G s cached l s1 W NS) as (W1 & L1 & L5 & NL & FR & CL).
  destruct (set_root E G s1 l g W1 L1 L5 K) as (s' & Q & W' & SH & F & LV & RC & TR).
  { intros x _. destruct CL as (D & X & _). destruct x; cbn [root_fit]; auto; rewrite D; destruct cached; discriminate. }
  exists l, s'. rewrite Q. cbn [bind]. split; [reflexivity|]. split; [exact W'|]. split; [exact SH|]. split; [|split; [|exact TR]].
  - intros x LX. destruct (FR x LX) as [A B]. split; [|apply LV; exact B].
    rewrite F; [exact A|exact B|]. intros ->. exact (NL LX).
  - intros x R. destruct (RC x R) as [->|[Z|[Z1 Z2]]]; [right; split; [exact NL|apply LV; exact L1]|left; exact Z|].
    right. split; [|exact Z2]. intros LX. apply Z1. apply (FR x LX).
Qed.
Print Assumptions C84_content.

(** [NewValueFrom(p, cached)] for a [*DxValue]: a copy of what [p] holds, sharing nothing with it, and a tree whatever [p] was. *)
Lemma graph_same s s1 m x : (forall y, live s y -> hp s1 y = hp s y /\ live s1 y) -> from_graph s m ->
  reach (hp s1) m x -> reach (hp s) m x /\ live s x.
Proof.
  intros FR [LM FG] R. induction R as [|x y R [IH LX] S]; [split; [constructor|exact LM]|].
  assert (S' : sees (hp s x) y) by (rewrite <- (proj1 (FR x LX)); exact S).
  assert (RY : reach (hp s) m y) by (eapply reach_step; eauto).
  split; [exact RY|]. apply reach_cases in RY as [->|(z & Z & RZ)]; [exact LM|]. apply (FG z Z y RZ).
Qed.
Theorem C84_copy : forall G s cached m v, wf s -> from_graph s m -> rep (hp s) (Some m) v -> clonable v ->
  exists n0, forall fuel, (n0 <= fuel)%nat -> exists l s', NewValueFromDx G fuel s cached (Some m) = Ok (l, s') /\ wf s' /\
    rep (hp s') (Some l) (strip v) /\ (forall x, live s x -> hp s' x = hp s x /\ live s' x) /\
    (forall x, reach (hp s') l x -> (x < 5)%nat \/ (~ live s x /\ live s' x)) /\ treelike (hp s') l.
Proof.
  intros G s cached m v W FG R CB. unfold NewValueFromDx. destruct (new_slot G s cached) as [l s1] eqn:NS.
  destruct (slot_ok G s cached l s1 W NS) as (W1 & L1 & L5 & NL & FR & CL).
  assert (FG1 : from_graph s1 m).
  { split; [apply FR; apply FG|]. intros y Y x X. rewrite (proj1 (FR m (proj1 FG))) in Y.
    assert (XM : reach (hp s1) m x).
    { eapply reach_trans; [apply reach_child; rewrite (proj1 (FR m (proj1 FG))); exact Y|exact X]. }
    destruct (graph_same s s1 m x FR FG XM) as [RX LX]. split; [apply FR; exact LX|].
    rewrite (proj1 (FR x LX)).
    assert (XY : reach (hp s) y x).
    { clear - FR FG X Y. assert (LY : live s y) by (apply (proj2 FG y Y y); constructor).
      assert (H : reach (hp s) y x /\ live s x); [|apply H].
      induction X as [|x z X [IH LX] S]; [split; [constructor|exact LY]|].
      assert (RZ : reach (hp s) y z) by (eapply reach_step; [exact IH|rewrite <- (proj1 (FR x LX)); exact S]).
      split; [exact RZ|]. apply (proj2 FG y Y z RZ). }
    apply (proj2 FG y Y x XY). }
  assert (AP : ~ reach (hp s1) m l).
  { intros X. destruct (graph_same s s1 m l FR FG X) as [_ LX]. exact (NL LX). }
  assert (R1 : rep (hp s1) (Some m) v).
  { apply (rep_same (hp s)); [exact R|]. intros x (z & Q & X). injection Q as <-. left.
    assert (LX : live s x).
    { apply reach_cases in X as [->|(z & Z & RZ)]; [apply FG|apply (proj2 FG z Z x RZ)]. }
    apply FR. exact LX. }
  destruct (CopyFrom_content G s1 l m None v W1) as [n0 H]; auto; [intros k Q; discriminate|].
  exists n0. intros fuel LE. destruct (H fuel LE) as (s' & Q & W' & RP & F & LV & RC & TR).
  exists l, s'. rewrite Q. cbn [bind]. split; [reflexivity|]. split; [exact W'|]. split; [exact RP|]. split; [|split; [|exact TR]].
  - intros x LX. destruct (FR x LX) as [A B]. split; [|apply LV; exact B].
    rewrite F; [exact A|exact B|]. intros ->. exact (NL LX).
  - intros x X. destruct (RC x X) as [->|[Z|[Z1 Z2]]]; [right; split; [exact NL|apply LV; exact L1]|left; exact Z|].
    right. split; [|exact Z2]. intros LX. apply Z1. apply (FR x LX).
Qed.
Print Assumptions C84_copy.

(** ... but [DxValue]s inside a map[string]interface{} are not copied: the new object refers to the very
    values of the map, under their keys. *)
Lemma push_new E G s l k p : c_dt (hp s l) = TObject -> (c_unesc (hp s l) = true \/ c_kvs (hp s l) = []) ->
  (forall k' p', In (k', p') (c_kvs (hp s l)) -> key_match E k' k = false) ->
  c_dt (hp (SetKeyValue E G s l k p) l) = TObject /\ c_unesc (hp (SetKeyValue E G s l k p) l) = true /\
  c_kvs (hp (SetKeyValue E G s l k p) l) = c_kvs (hp s l) ++ [(k, p)].
Proof.
  intros D UN NK. assert (FK : find_key E (c_kvs (hp s l)) k = None) by (apply find_key_none'; exact NK).
  unfold SetKeyValue. rewrite D. change (vt_eqb TObject TArray) with false. change (vt_eqb TObject TObject) with true. cbn [andb].
  assert (OI : obj_index E s l k = (None, set_cell s l (w_obj (hp s l) true (c_kvs (hp s l)) (c_spare (hp s l))))).
  { unfold obj_index, index_by_name. destruct UN as [UN|UN].
    - rewrite UN. cbn [negb andb]. unfold unescape_keys. rewrite FK. reflexivity.
    - rewrite UN. unfold unescape_keys. cbn [find_key map]. destruct (c_unesc (hp s l)); cbn [negb andb find_key map]; [reflexivity|].
      destruct (no_backslash k); reflexivity. }
  rewrite OI. cbn [set_cell hp]. rewrite !upd_same.
  destruct (push_fields G (w_obj (hp s l) true (c_kvs (hp s l)) (c_spare (hp s l))) k p) as (P1 & P2 & P3).
  rewrite P1, P2, P3. cbn [w_obj c_dt c_unesc c_kvs]. auto.
Qed.
Lemma fill_map E G l : forall kvs s, wf s -> live s l -> c_dt (hp s l) = TObject -> (c_unesc (hp s l) = true \/ c_kvs (hp s l) = []) ->
  no_clash E (c_kvs (hp s l) ++ kvs) -> (forall k p m, In (k, p) kvs -> p = Some m -> live s m) ->
  exists s', over_keys (fun s k p => Ok (SetKeyValue E G s l k p)) kvs s = Ok s' /\ wf s' /\ c_dt (hp s' l) = TObject /\
    c_kvs (hp s' l) = c_kvs (hp s l) ++ kvs /\ (forall x, live s x -> x <> l -> hp s' x = hp s x) /\ (forall x, live s x -> live s' x).
Proof.
  induction kvs as [|[k p] kvs IH]; intros s W L D UN NC LP; cbn [over_keys].
  - exists s. rewrite app_nil_r. auto 10.
  - cbn [bind].
    assert (NK : forall k' p', In (k', p') (c_kvs (hp s l)) -> key_match E k' k = false).
    { intros k' p' I. clear - NC I. induction (c_kvs (hp s l)) as [|a r IHr]; [destruct I|]. cbn [app] in NC. inversion NC as [|? ? F1 F2]; subst.
      destruct I as [->|I]; [|apply IHr; auto]. rewrite Forall_forall in F1. apply (F1 (k, p)). apply in_or_app. right. left. reflexivity. }
    destruct (push_new E G s l k p D UN NK) as (D' & U' & K'). pose proof (stored_key E G s l k p D) as ST.
    assert (OP : ok_ptr N s p). { intros m ->. destruct (LP k (Some m) m (or_introl eq_refl) eq_refl) as [LM _]. split; [exact LM|intros []]. }
    assert (OL : ok_loc N s l) by (split; [apply L|intros []]).
    destruct (IH (SetKeyValue E G s l k p)) as (s' & Q & W' & D2 & K2 & F2 & L2).
    + apply (tr_SetKeyValue N N E G s l k p W OL OP).
    + apply (so_live _ _ _ _ ST). exact L.
    + exact D'.
    + left. exact U'.
    + rewrite K', <- app_assoc. exact NC.
    + intros k' p' m I QP. apply (so_live _ _ _ _ ST). apply (LP k' p' m); [right; exact I|exact QP].
    + exists s'. split; [exact Q|]. split; [exact W'|]. split; [exact D2|]. split; [rewrite K2, K', <- app_assoc; reflexivity|]. split.
      * intros x LX NE. rewrite F2; [apply (so_frame _ _ _ _ ST); auto|apply (so_live _ _ _ _ ST); exact LX|exact NE].
      * intros x LX. apply L2. apply (so_live _ _ _ _ ST). exact LX.
Qed.
Theorem C84_shared : forall E G s cached kvs, wf s -> no_clash E kvs -> (forall k p m, In (k, p) kvs -> p = Some m -> live s m) ->
  exists l s', NewValueFromDxMap E G s cached kvs = Ok (l, s') /\ wf s' /\ c_dt (hp s' l) = TObject /\ c_kvs (hp s' l) = kvs /\
    forall x, live s x -> hp s' x = hp s x /\ live s' x.
Proof.
  intros E G s cached kvs W NC LP. unfold NewValueFromDxMap. destruct (new_slot G s cached) as [l s1] eqn:NS.
  destruct (slot_ok G s cached l s1 W NS) as (W1 & L1 & L5 & NL & FR & CL).
  assert (RS : Reset s1 l TObject = set_cell s1 l (reset_cell (hp s1 l) TObject)).
  { unfold Reset. rewrite not_shared by auto. reflexivity. }
  assert (LV : forall x, live s1 x -> live (Reset s1 l TObject) x) by (intros x X; rewrite RS; apply live_set_cell; exact X).
  assert (HL : hp (Reset s1 l TObject) l = reset_cell (hp s1 l) TObject) by (rewrite RS; cbn [set_cell hp]; apply upd_same).
  assert (HX : forall x, x <> l -> hp (Reset s1 l TObject) x = hp s1 x) by (intros x X; rewrite RS; cbn [set_cell hp]; apply upd_other; exact X).
  destruct (fill_map E G l kvs (Reset s1 l TObject)) as (s' & Q & W' & D & K & F & L2).
  - apply (tr_Reset N N s1 l TObject W1). split; [apply L1|intros []].
  - apply LV. exact L1.
  - rewrite HL. reflexivity.
  - right. rewrite HL. reflexivity.
  - rewrite HL. exact NC.
  - intros k p m I QP. apply LV. apply FR. eapply LP; eauto.
  - exists l, s'. rewrite Q. cbn [bind]. split; [reflexivity|]. split; [exact W'|]. split; [exact D|]. split; [rewrite K, HL; reflexivity|].
    intros x LX. assert (NE : x <> l) by (intros ->; exact (NL LX)). destruct (FR x LX) as [A B].
    split; [rewrite F by auto; rewrite HX by auto; exact A|apply L2, LV, B].
Qed.
Print Assumptions C84_shared.
(** The same for a []interface{}. *)
Lemma fill_list l : forall ps i s, wf s -> live s l -> (5 <= l)%nat -> c_dt (hp s l) = TArray -> zlen (c_arr (hp s l)) = i ->
  (forall p m, In p ps -> p = Some m -> live s m) ->
  exists s', over_list (fun s i p => Ok (SetIndexValue s l i p)) i ps s = Ok s' /\ wf s' /\ c_dt (hp s' l) = TArray /\
    c_arr (hp s' l) = c_arr (hp s l) ++ ps /\ (forall x, x <> l -> hp s' x = hp s x) /\ (forall x, live s x -> live s' x).
Proof.
  induction ps as [|p ps IH]; intros i s W L L5 D LN LP; cbn [over_list].
  - exists s. rewrite app_nil_r. auto 10.
  - cbn [bind].
    assert (Q : SetIndexValue s l i p = set_cell s l (w_arr (hp s l) (c_arr (hp s l) ++ [p]))).
    { unfold SetIndexValue. rewrite D. change (vt_eqb TArray TArray) with true. cbv zeta iota.
      destruct ((0 <=? i) && (i <? zlen (c_arr (hp s l)))) eqn:Z; [lia|reflexivity]. }
    assert (LV : forall x, live s x -> live (SetIndexValue s l i p) x) by (intros x X; rewrite Q; apply live_set_cell; exact X).
    assert (HL : hp (SetIndexValue s l i p) l = w_arr (hp s l) (c_arr (hp s l) ++ [p])) by (rewrite Q; cbn [set_cell hp]; apply upd_same).
    assert (HX : forall x, x <> l -> hp (SetIndexValue s l i p) x = hp s x) by (intros x X; rewrite Q; cbn [set_cell hp]; apply upd_other; exact X).
    assert (OP : ok_ptr N s p). { intros m ->. destruct (LP (Some m) m (or_introl eq_refl) eq_refl) as [LM _]. split; [exact LM|intros []]. }
    destruct (IH (i + 1) (SetIndexValue s l i p)) as (s' & Q' & W' & D2 & K2 & F2 & L2).
    + apply (tr_SetIndexValue N N s l i p W); [split; [apply L|intros []]|exact OP].
    + apply LV, L.
    + exact L5.
    + rewrite HL. exact D.
    + rewrite HL. cbn [w_arr c_arr]. unfold zlen in *. rewrite app_length. cbn [length]. lia.
    + intros p' m I QP. apply LV. apply (LP p' m); [right; exact I|exact QP].
    + exists s'. split; [exact Q'|]. split; [exact W'|]. split; [exact D2|]. split; [rewrite K2, HL; cbn [w_arr c_arr]; rewrite <- app_assoc; reflexivity|].
      split; [intros x NE; rewrite F2 by exact NE; apply HX; exact NE|]. intros x X. apply L2, LV, X.
Qed.
Theorem C84_shared_list : forall G s cached ps, wf s -> (forall p m, In p ps -> p = Some m -> live s m) ->
  exists l s', NewValueFromDxList G s cached ps = Ok (l, s') /\ wf s' /\ c_dt (hp s' l) = TArray /\ c_arr (hp s' l) = ps /\
    forall x, live s x -> hp s' x = hp s x /\ live s' x.
Proof.
  intros G s cached ps W LP. unfold NewValueFromDxList. destruct (new_slot G s cached) as [l s1] eqn:NS.
  destruct (slot_ok G s cached l s1 W NS) as (W1 & L1 & L5 & NL & FR & CL).
  assert (RS : Reset s1 l TArray = set_cell s1 l (reset_cell (hp s1 l) TArray)).
  { unfold Reset. rewrite not_shared by auto. reflexivity. }
  assert (LV : forall x, live s1 x -> live (Reset s1 l TArray) x) by (intros x X; rewrite RS; apply live_set_cell; exact X).
  assert (HL : hp (Reset s1 l TArray) l = reset_cell (hp s1 l) TArray) by (rewrite RS; cbn [set_cell hp]; apply upd_same).
  assert (HX : forall x, x <> l -> hp (Reset s1 l TArray) x = hp s1 x) by (intros x X; rewrite RS; cbn [set_cell hp]; apply upd_other; exact X).
  destruct (fill_list l ps 0 (Reset s1 l TArray)) as (s' & Q & W' & D & K & F & L2); auto.
  - apply (tr_Reset N N s1 l TArray W1). split; [apply L1|intros []].
  - rewrite HL. reflexivity.
  - rewrite HL. reflexivity.
  - intros p m I QP. apply LV. apply FR. eapply LP; eauto.
  - exists l, s'. rewrite Q. cbn [bind]. split; [reflexivity|]. split; [exact W'|]. split; [exact D|]. split; [rewrite K, HL; reflexivity|].
    intros x LX. assert (NE : x <> l) by (intros ->; exact (NL LX)). destruct (FR x LX) as [A B].
    split; [rewrite F by auto; rewrite HX by auto; exact A|apply L2, LV, B].
Qed.
Print Assumptions C84_shared_list.

(** ** What [NewValueFrom] does not keep *)
(** The values that [SetValue] ignores on such a receiver, among them every []byte, nil and every string
    behind a pointer.  Uncached the result is an empty object, cached an integer. *)
Definition ignored (g : goval) : Prop :=
  match g with
  | GNil | GOther | GBytes _ | GSc true _ | GRMap _ [] | GPtr (GBytes _) | GPtr (GSc _ (SStr _)) | GNilPtr false => True
  | _ => False
  end.
Theorem C84_ignored_refuted : forall E G s cached g, wf s -> ignored g ->
  exists l s', NewValueFrom E G s cached g = Ok (l, s') /\
    match cached with
    | None => rep (hp s') (Some l) (VObject false [])
    | Some _ => exists n, rep (hp s') (Some l) (VInt 0 n)
    end.
Proof.
  intros E G s cached g W IG. unfold NewValueFrom. destruct (new_slot G s cached) as [l s1] eqn:NS.
  destruct (slot_ok G s cached l s1 W NS) as (W1 & L1 & L5 & NL & FR & CL). exists l, s1.
  assert (NB : forall b, SetBinary s1 l b = s1).
  { intros b. unfold SetBinary. destruct CL as (D & _). rewrite D. destruct cached; reflexivity. }
  assert (Q : SetValue E G s1 l g = Ok s1).
  { unfold SetValue. rewrite not_shared by auto.
    destruct g as [|[] y|t|b|m|m|m|a|a|f1|i1 [|? m]|i1 a|[|? []|?|?|?|?|?|?|?|?|?|?|?|?|]|[]|]; try (destruct IG; fail);
      cbn [assign ptr_ignored]; try reflexivity; try (rewrite NB; reflexivity).
    destruct named; reflexivity. }
  rewrite Q. cbn [bind]. split; [reflexivity|]. destruct CL as (D & X & U & K & _). destruct cached.
  - exists (to_i64 (c_sv (hp s1 l))). rewrite <- X. apply rep_int. exact D.
  - rewrite <- U. apply rep_obj; [exact D|]. rewrite K. constructor.
Qed.
Print Assumptions C84_ignored_refuted.
(** ... and that integer is what the recycled memory held: here the -1 of a value freed before. *)
Theorem C84_stale_refuted : wf recycled_st /\ ignored (GBytes (bs "data")) /\
  exists l s', NewValueFrom e1 g0 recycled_st (Some (Some 0%nat)) (GBytes (bs "data")) = Ok (l, s') /\
    rep (hp s') (Some l) (VInt 0 (-1)).
Proof.
  split; [exact recycled_wf|]. split; [exact I|].
  destruct (ok_ex (fun r : nat * st => (fst r, view 2 (hp (snd r)) (Some (fst r))))
    (NewValueFrom e1 g0 recycled_st (Some (Some 0%nat)) (GBytes (bs "data"))) (5%nat, Some (VInt 0 (-1)))) as ([l s'] & Q1 & Q2);
    [vm_compute; reflexivity|].
  cbn [fst snd] in Q2. apply pair_equal_spec in Q2 as [-> Q2]. exists 5%nat, s'. split; [exact Q1|]. apply (view_rep 2). exact Q2.
Qed.
Print Assumptions C84_stale_refuted.
(** A time becomes a number, while below a key it stays a time (C62). *)
Theorem C84_time_refuted : forall E G s cached t, wf s ->
  exists l s', NewValueFrom E G s cached (GTime t) = Ok (l, s') /\ rep (hp s') (Some l) (VDouble (x_delphi E t)).
Proof.
  intros E G s cached t W. unfold NewValueFrom. destruct (new_slot G s cached) as [l s1] eqn:NS.
  destruct (slot_ok G s cached l s1 W NS) as (W1 & L1 & L5 & NL & FR & CL).
  unfold SetValue. rewrite not_shared by auto. cbn [assign bind]. eexists. eexists. split; [reflexivity|].
  destruct CL as (D & _). unfold SetDouble. rewrite not_shared by auto. rewrite D.
  replace (is_dbl _) with false by (destruct cached; reflexivity). cbv zeta. unfold Reset. rewrite not_shared by auto. cbn [set_cell hp]. rewrite upd_same.
  match goal with |- rep ?h0 _ _ => assert (U : h0 l = w_sv (reset_cell (hp s1 l) TDouble) (x_delphi E t)) by (apply upd_same);
    generalize dependent h0; intros h U end.
  replace (VDouble (x_delphi E t)) with (VDouble (c_sv (h l))) by (rewrite U; reflexivity). apply rep_dbl. rewrite U. reflexivity.
Qed.
Print Assumptions C84_time_refuted.

(** ** Cases *)
Example C84_case : wf recycled_st /\ root_kept e1 (GMap [(bs "a", GSc false (SInt 7)); (bs "b", GBytes (bs "x"))]) /\
  ok_map (fun r => view 3 (hp (snd r)) (Some (fst r)))
    (NewValueFrom e1 g0 recycled_st (Some (Some 0%nat)) (GMap [(bs "a", GSc false (SInt 7)); (bs "b", GBytes (bs "x"))]))
  = Some (Some (VObject true [(bs "a", VInt 0 7); (bs "b", VBinary 0 (bs "x"))])).
Proof.
  split; [exact recycled_wf|]. split; [|vm_compute; reflexivity].
  cbn [root_kept ReflectSpec.kept]. split; [repeat constructor|]. cbn. repeat split; lia.
Qed.
Example C84_copy_case : wf merge_st /\ from_graph merge_st 23 /\ rep (hp merge_st) (Some 23%nat) (VArray [VNull]) /\ clonable (VArray [VNull]) /\
  ok_map (fun r => view 3 (hp (snd r)) (Some (fst r))) (NewValueFromDx g0 9 merge_st None (Some 23%nat)) = Some (Some (VArray [VNull])).
Proof.
  assert (RM : forall x, reach (hp merge_st) 23 x -> In x [23; 2]%nat) by (apply reach_in; [left; reflexivity|vm_compute; reflexivity]).
  split; [exact merge_wf|].
  split. { split; [apply live_of; vm_compute; reflexivity|]. intros y Y x X.
    assert (R : reach (hp merge_st) 23 x) by (eapply reach_trans; [apply reach_child; exact Y|exact X]).
    apply RM in R. destruct R as [<-|[<-|[]]];
    (split; [apply live_of; vm_compute; reflexivity|]); intros Cd; try lia; exfalso; apply Cd; vm_compute; reflexivity. }
  split; [apply (view_rep 3); vm_compute; reflexivity|]. split; [cbn; auto|]. vm_compute. reflexivity.
Qed.
(** A map with the array of [merge_st]: emptying that array empties it in the new object. *)
Example C84_shared_case : wf merge_st /\ no_clash e1 [(bs "k", Some 23%nat)] /\ live merge_st 23 /\
  ok_map (fun r => (view 3 (hp (snd r)) (Some (fst r)), view 3 (hp (Reset (snd r) 23 TArray)) (Some (fst r))))
    (NewValueFromDxMap e1 g0 merge_st None [(bs "k", Some 23%nat)])
  = Some (Some (VObject true [(bs "k", VArray [VNull])]), Some (VObject true [(bs "k", VArray [])])) /\
  ok_map (fun r => view 3 (hp (snd r)) (Some (fst r))) (NewValueFromDxList g0 merge_st (Some None) [Some 23%nat; None])
  = Some (Some (VArray [VArray [VNull]; VNilP])).
Proof.
  split; [exact merge_wf|]. split; [repeat constructor|]. split; [apply live_of; vm_compute; reflexivity|]. split; vm_compute; reflexivity.
Qed.
