(** Objects and arrays under sequences of API calls. *)
From Verif Require Import Base Values Tactics HeapModel HeapSpec HeapBase HeapConf HeapGet ApiSpec HeapMap HeapCalls.

Section Obj.
Variable E : env.
Variable G : nat -> nat.
Hypothesis EO : env_ok E.
Notation same := (key_match E).
Notation pairs := (pairs E).
Notation N := none_set.

Lemma not_N x : ~ N x. Proof. intros []. Qed.
Lemma ok_of_live s l : live s l -> ok_loc N s l.
Proof. intros [H _]. split; [exact H|apply not_N]. Qed.
Lemma good_5 s l : wf s -> (c_dt (hp s l) = TObject \/ c_dt (hp s l) = TArray) -> (5 <= l)%nat.
Proof.
  intros W D. destruct (Nat.lt_ge_cases l 5) as [L|L]; auto.
  rewrite (i_const _ _ _ W l L) in D. destruct l as [|[|[|[|[|]]]]]; destruct D as [D|D]; try discriminate; lia.
Qed.

Lemma map_snd_set_val {A} i (x : A) m : map snd (set_val i x m) = set_nth i x (map snd m).
Proof.
  unfold set_val. destruct (nth_error m i) as [[k y]|] eqn:Q.
  - apply map_set_nth.
  - revert i Q. induction m as [|[k y] m IH]; intros [|i] Q; cbn in *; auto; try discriminate. f_equal; auto.
Qed.

Lemma set_val_same {A} i (x : A) m k : nth_error m i = Some (k, x) -> set_val i x m = m.
Proof.
  intros Q. unfold set_val. rewrite Q. revert i Q.
  induction m as [|y m IH]; intros [|i] Q; cbn [nth_error set_nth] in *; try discriminate.
  - injection Q as ->. reflexivity.
  - f_equal; auto.
Qed.

(** Lookup in the object part. *)
Lemma obj_index_spec s l name : distinct_keys same (pairs s l) ->
  exists u' kvs', snd (obj_index E s l name) = set_cell s l (w_obj (hp s l) u' kvs' (c_spare (hp s l))) /\
    fst (obj_index E s l name) = find_key E (pairs s l) name /\
    unescape_keys E u' kvs' = pairs s l /\ (fst (obj_index E s l name) = None -> u' = true) /\
    map snd kvs' = map snd (c_kvs (hp s l)).
Proof.
  intros D. unfold obj_index.
  pose proof (snd_index_by_name E (c_unesc (hp s l)) (c_kvs (hp s l)) name) as SN.
  destruct (index_by_name E (c_unesc (hp s l)) (c_kvs (hp s l)) name) as [r [u' kvs']] eqn:Q.
  apply (index_view E EO) in Q as (Q1 & Q2 & Q3); auto.
  exists u', kvs'. cbn [fst snd] in *. auto.
Qed.

Lemma pairs_set_cell s l c : pairs (set_cell s l c) l = unescape_keys E (c_unesc c) (c_kvs c).
Proof. unfold HeapCalls.pairs. cbn [hp set_cell]. rewrite upd_same. reflexivity. Qed.

Lemma nth_pairs s l i : nth_error (map snd (pairs s l)) i = nth_error (map snd (c_kvs (hp s l))) i.
Proof. unfold HeapCalls.pairs. rewrite snd_unescape_keys. reflexivity. Qed.

Lemma lookup_spec s l name : c_dt (hp s l) = TObject -> distinct_keys same (pairs s l) ->
  fst (ValueByName E s l name) = match find_key E (pairs s l) name with
    | Some i => match nth_error (pairs s l) i with Some (_, p) => p | None => None end | None => None end /\
  pairs (snd (ValueByName E s l name)) l = pairs s l /\
  map snd (c_kvs (hp (snd (ValueByName E s l name)) l)) = map snd (c_kvs (hp s l)) /\
  c_dt (hp (snd (ValueByName E s l name)) l) = TObject /\
  (forall x, live s x -> live (snd (ValueByName E s l name)) x).
Proof.
  intros T D. unfold ValueByName. rewrite T.
  destruct (obj_index_spec s l name D) as (u' & kvs' & H1 & H2 & H3 & _ & H4).
  destruct (obj_index E s l name) as [r s1]. cbn [fst snd] in *. subst s1.
  rewrite pairs_set_cell. cbn [w_obj c_unesc c_kvs hp set_cell c_dt]. rewrite upd_same.
  cbn [w_obj c_kvs c_dt c_unesc]. split; [|split; [auto|split; [auto|split; [auto|auto]]]].
  rewrite <- H2. destruct r as [i|]; auto.
  assert (M : nth_error (map snd kvs') i = nth_error (map snd (pairs s l)) i) by (rewrite H4, nth_pairs; reflexivity).
  rewrite !nth_error_map in M.
  destruct (nth_error kvs' i) as [[? ?]|], (nth_error (pairs s l) i) as [[? ?]|]; cbn in M; congruence.
Qed.

Lemma items_spec s l i : c_dt (hp s l) = TObject ->
  pairs (snd (Items E s l i)) l = pairs s l /\
  map snd (c_kvs (hp (snd (Items E s l i)) l)) = map snd (c_kvs (hp s l)) /\
  c_dt (hp (snd (Items E s l i)) l) = TObject /\
  (forall x, live s x -> live (snd (Items E s l i)) x).
Proof.
  intros T. unfold Items. rewrite T. destruct (_ && _); cbn [snd]; [|auto].
  rewrite pairs_set_cell. cbn [w_obj c_unesc c_kvs hp set_cell]. rewrite upd_same. cbn [w_obj c_kvs c_dt].
  rewrite snd_unescape_keys. auto.
Qed.

Notation good := (good_obj).

Lemma tr_wf s s' : tr N N s s' -> wf s'. Proof. intros H; apply H. Qed.

Lemma push_view c name p : c_unesc c = true ->
  unescape_keys E (c_unesc (push_kv G c name p)) (c_kvs (push_kv G c name p)) = c_kvs c ++ [(name, p)] /\
  c_kvs (push_kv G c name p) = c_kvs c ++ [(name, p)] /\ c_dt (push_kv G c name p) = c_dt c.
Proof. intros U. unfold push_kv. destruct (c_spare c); cbn [w_obj c_unesc c_kvs c_dt]; rewrite U; auto. Qed.

Lemma set_cached_spec s l name t c r s' : good s l -> distinct_keys same (pairs s l) -> ok_cache N s c ->
  SetKeyCached E G s l name t c = Ok (r, s') ->
  good s' l /\ pairs s' l = (match find_key E (pairs s l) name with
                             | Some i => set_val i (Some r) (pairs s l)
                             | None => pairs s l ++ [(name, Some r)] end).
Proof.
  intros (W & L & T & SF) D OC H.
  assert (W' : wf s') by (apply (tr_SetKeyCached N N E G s l name t c r s' W (ok_of_live _ _ L) OC H)).
  unfold SetKeyCached in H. rewrite T in H. change (vt_eqb TObject TArray) with false in H.
  change (vt_eqb TObject TObject) with true in H. cbn [andb] in H. cbv zeta in H.
  destruct (obj_index_spec s l name D) as (u' & kvs' & H1 & H2 & H3 & HN & H4).
  pose proof (tr_obj_index N N E s l name W (ok_of_live _ _ L)) as T2.
  destruct (obj_index E s l name) as [ri s2]. cbn [fst snd] in *.
  assert (W2 : wf s2) by (apply T2). 
  assert (L2 : live s2 l) by (subst s2; exact L).
  assert (C2 : hp s2 l = w_obj (hp s l) u' kvs' (c_spare (hp s l))) by (subst s2; cbn [hp set_cell]; apply upd_same).
  assert (OC2 : ok_cache N s2 c) by (exact (ok_cache_tr N N _ _ _ T2 OC)).
  pose proof (getValue_got G s2 c t W2 OC2) as GV.
  pose proof (good_5 s l W (or_introl T)) as L5.
  destruct ri as [i|].
  - rewrite <- H2. rewrite C2 in H. cbn [w_obj c_kvs] in H.
    destruct (nth_error kvs' i) as [[k [r0|]]|] eqn:NE; try discriminate.
    assert (NEP : exists k', nth_error (pairs s l) i = Some (k', Some r0)).
    { assert (M : nth_error (map snd (pairs s l)) i = Some (Some r0)).
      { rewrite nth_pairs, <- H4, nth_error_map, NE. reflexivity. }
      rewrite nth_error_map in M. destruct (nth_error (pairs s l) i) as [[k' ?]|]; cbn in M; [|discriminate].
      injection M as ->. eauto. }
    destruct NEP as [k' NEP].
    assert (R0 : r0 <> l).
    { intros ->. apply SF. rewrite <- H4. apply nth_error_In in NE. apply (in_map snd) in NE. exact NE. }
    assert (KEEP : set_val i (Some r0) (pairs s l) = pairs s l).
    { exact (set_val_same i (Some r0 : ptr) (pairs s l) k' NEP). }
    destruct (ReadOnly r0).
    + destruct (getValue G s2 c t) as [r' s3]. cbn [fst snd] in GV. destruct (got_frame _ _ _ _ l GV L2) as [F3 RN].
      injection H as <- <-. rewrite F3, C2 in W' |- *. cbn [w_obj c_unesc c_kvs c_spare] in W' |- *.
      rewrite pairs_set_cell. cbn [w_obj c_unesc c_kvs]. split.
      * split; [exact W'|split; [exact (g_lives _ _ _ _ GV l L2)|]]. cbn [hp set_cell]. rewrite upd_same.
        cbn [w_obj c_dt c_kvs]. split; auto. rewrite map_snd_set_val. intros X. apply In_set_nth in X as [X|X]; [congruence|].
        apply SF. rewrite <- H4. exact X.
      * rewrite (view_set_val E), H3. reflexivity.
    + assert (PR : forall s3, hp s3 l = hp s2 l -> live s3 l -> wf s3 -> good s3 l /\ pairs s3 l = pairs s l).
      { intros s3 F L3 W3. unfold good_obj, HeapCalls.pairs. rewrite F, C2. cbn [w_obj c_dt c_kvs c_unesc].
        rewrite H4, H3. auto. }
      destruct (vt_eqb (c_dt (hp s2 r0)) t); injection H as <- <-; rewrite KEEP; apply PR; auto.
      * unfold Reset. destruct (ReadOnly r0); auto. cbn [hp set_cell]. apply upd_other. auto.
      * unfold Reset. destruct (ReadOnly r0); auto.
  - rewrite <- H2. rewrite (HN eq_refl) in *. clear HN.
    destruct (getValue G s2 c t) as [r' s3]. cbn [fst snd] in GV. destruct (got_frame _ _ _ _ l GV L2) as [F3 RN].
    injection H as <- <-. rewrite pairs_set_cell. rewrite F3, C2 in W' |- *.
    destruct (push_view (w_obj (hp s l) true kvs' (c_spare (hp s l))) name (Some r') eq_refl) as (P1 & P2 & P3).
    rewrite P1. cbn [w_obj c_kvs] in *. cbn [unescape_keys] in H3. split; [|rewrite H3; reflexivity].
    split; [exact W'|split; [exact (g_lives _ _ _ _ GV l L2)|]]. cbn [hp set_cell]. rewrite upd_same, P2, P3.
    split; auto. rewrite map_app. intros X. apply in_app_or in X as [X|[X|[]]].
    + apply SF. rewrite <- H4. exact X.
    + cbn [snd] in X. congruence.
Qed.

Lemma set_value_spec s l name p : good s l -> distinct_keys same (pairs s l) -> p <> Some l -> stored s p ->
  good (SetKeyValue E G s l name p) l /\
  pairs (SetKeyValue E G s l name p) l =
    (match find_key E (pairs s l) name with
     | Some i => set_val i p (pairs s l) | None => pairs s l ++ [(name, p)] end).
Proof.
  intros (W & L & T & SF) D NP SP.
  assert (W' : wf (SetKeyValue E G s l name p)).
  { apply (tr_SetKeyValue N N E G s l name p W (ok_of_live _ _ L)). intros x Q. split; [apply SP; auto|apply not_N]. }
  unfold SetKeyValue in *. rewrite T in *. change (vt_eqb TObject TArray) with false in *.
  change (vt_eqb TObject TObject) with true in *. cbn [andb] in *. cbv zeta in *.
  destruct (obj_index_spec s l name D) as (u' & kvs' & H1 & H2 & H3 & HN & H4).
  destruct (obj_index E s l name) as [ri s2]. cbn [fst snd] in *.
  assert (L2 : live s2 l) by (subst s2; exact L).
  assert (C2 : hp s2 l = w_obj (hp s l) u' kvs' (c_spare (hp s l))) by (subst s2; cbn [hp set_cell]; apply upd_same).
  rewrite <- H2. destruct ri as [i|].
  - rewrite pairs_set_cell. rewrite C2 in W' |- *. cbn [w_obj c_unesc c_kvs] in W' |- *. rewrite (view_set_val E), H3. split; auto.
    split; [exact W'|split; [exact L2|]]. cbn [hp set_cell]. rewrite upd_same.
    cbn [w_obj c_dt c_kvs]. split; auto. rewrite map_snd_set_val. intros X. apply In_set_nth in X as [X|X]; [congruence|].
    apply SF. rewrite <- H4. exact X.
  - rewrite (HN eq_refl) in *. rewrite pairs_set_cell. rewrite C2 in *.
    destruct (push_view (w_obj (hp s l) true kvs' (c_spare (hp s l))) name p eq_refl) as (P1 & P2 & P3).
    rewrite P1. cbn [w_obj c_kvs] in *. cbn [unescape_keys] in H3. split; [|rewrite H3; reflexivity].
    split; [exact W'|split; [exact L2|]]. cbn [hp set_cell]. rewrite upd_same, P2, P3.
    split; auto. rewrite map_app. intros X. apply in_app_or in X as [X|[X|[]]].
    + apply SF. rewrite <- H4. exact X.
    + cbn [snd] in X. congruence.
Qed.

Lemma extract_spec s l name : good s l -> distinct_keys same (pairs s l) ->
  good (snd (ExtractValue E s l name)) l /\
  snd (ExtractValue E s l name) = RemoveKey E s l name /\
  fst (ExtractValue E s l name) = fst (ValueByName E s l name) /\
  pairs (RemoveKey E s l name) l =
    (match find_key E (pairs s l) name with
     | Some i => remove_at i (pairs s l) | None => pairs s l end).
Proof.
  intros (W & L & T & SF) D.
  assert (W' : wf (snd (ExtractValue E s l name))).
  { apply (tr_ExtractValue N N E s l name W (ok_of_live _ _ L)). }
  unfold ExtractValue, RemoveKey, ValueByName in *. rewrite T in *.
  destruct (obj_index_spec s l name D) as (u' & kvs' & H1 & H2 & H3 & HN & H4).
  destruct (obj_index E s l name) as [ri s2]. cbn [fst snd] in *.
  assert (L2 : live s2 l) by (subst s2; exact L).
  assert (C2 : hp s2 l = w_obj (hp s l) u' kvs' (c_spare (hp s l))) by (subst s2; cbn [hp set_cell]; apply upd_same).
  rewrite <- H2. destruct ri as [i|]; cbn [fst snd] in *.
  - rewrite pairs_set_cell. rewrite C2 in *. unfold remove_kv. cbn [w_obj c_unesc c_kvs].
    rewrite (view_remove E), H3. split; auto.
    split; [exact W'|split; [exact L2|]]. cbn [hp set_cell]. rewrite upd_same.
    cbn [w_obj c_dt c_kvs]. split; auto. rewrite map_remove_at. intros X. apply In_remove_at in X.
    apply SF. rewrite <- H4. exact X.
  - split; [|split; [auto|split; [auto|]]].
    + split; [exact W'|split; [exact L2|]]. rewrite C2. cbn [w_obj c_dt c_kvs]. rewrite H4. auto.
    + unfold HeapCalls.pairs at 1. rewrite C2. exact H3.
Qed.

Lemma obj_step_spec l s ev s' h : obj_step E G l s ev s' -> good s l -> repr E h (pairs s l) ->
  good s' l /\ repr E (ev ++ h) (pairs s' l).
Proof.
  intros St Gd R. pose proof Gd as (W & L & T & SF). pose proof (proj1 R) as D.
  assert (SET : forall name p s1, good s1 l /\ pairs s1 l = (match find_key E (pairs s l) name with
     | Some i => set_val i p (pairs s l) | None => pairs s l ++ [(name, p)] end) ->
     good s1 l /\ repr E ([ESet name p] ++ h) (pairs s1 l)).
  { intros name p s1 [G1 ->]. split; auto. apply (repr_set E EO); auto. }
  destruct St.
  - apply SET. eapply set_cached_spec; eauto. apply own_okc; auto.
  - apply SET. eapply set_cached_spec; eauto. apply own_okc; auto.
  - apply SET. apply set_value_spec; auto.
  - apply SET. apply set_value_spec; auto.
    + pose proof (good_5 s l W (or_introl T)). destruct b; intros X; injection X as X; unfold loc_true, loc_false in X; lia.
    + pose proof (i_nx _ _ _ W). intros x X. destruct b; injection X as <-; unfold loc_true, loc_false; lia.
  - destruct (extract_spec s l name Gd D) as (G1 & Q & _ & ->). rewrite <- Q. split; auto. apply (repr_del E EO); auto.
  - destruct (extract_spec s l name Gd D) as (G1 & Q & _ & Q2). rewrite Q in *. rewrite Q2. split; auto. apply (repr_del E EO); auto.
  - destruct (lookup_spec s l name T D) as (_ & P1 & P2 & P3 & P4). cbn [app]. rewrite P1. split; auto.
    split; [apply (tr_ValueByName N N E s l name W (ok_of_live _ _ L))|]. rewrite P2. auto.
  - destruct (items_spec s l i T) as (P1 & P2 & P3 & P4). cbn [app]. rewrite P1. split; auto.
    split; [apply (tr_Items N N E s l i W (ok_of_live _ _ L))|]. rewrite P2. auto.
  - cbn [app]. unfold HeapCalls.pairs, good_obj. rewrite H1. auto.
Qed.

Lemma obj_steps_spec l s h s' : obj_steps E G l s h s' -> good s l -> distinct_keys same (pairs s l) ->
  good s' l /\ repr E (h ++ as_history (pairs s l)) (pairs s' l).
Proof.
  intros St Gd D. induction St as [s|s h1 s1 h2 s2 St IH S1].
  - split; auto. apply (repr_init E EO); auto.
  - destruct (IH Gd D) as [G1 R1]. rewrite <- app_assoc. eapply obj_step_spec; eauto.
Qed.

(** C28 *)
Theorem objects_are_ordered_maps l s h s' :
  obj_steps E G l s h s' -> good s l -> distinct_keys same (pairs s l) ->
  let h' := h ++ as_history (pairs s l) in
  map (fun kv => (fst kv, Some (snd kv))) (pairs s' l) = content same h' /\
  Count s' l = zlen (key_order same h') /\
  (forall name, fst (ValueByName E s' l name) = match last_set same h' name with Some p => p | None => None end) /\
  (forall name, fst (ExtractValue E s' l name) = fst (ValueByName E s' l name)).
Proof.
  intros St Gd D. cbv zeta. destruct (obj_steps_spec l s h s' St Gd D) as [G1 R].
  pose proof G1 as (W & L & T & SF). pose proof (proj1 R) as D1.
  split; [symmetry; apply repr_content; auto|]. split; [|split].
  - unfold Count. rewrite T. unfold zlen. rewrite (repr_count E _ _ R). unfold HeapCalls.pairs.
    rewrite <- (map_length snd (unescape_keys _ _ _)), snd_unescape_keys, map_length. reflexivity.
  - intros name. rewrite (proj1 (lookup_spec s' l name T D1)).
    pose proof (repr_find E EO _ _ name R) as F. destruct (find_key E (pairs s' l) name) as [i|].
    + destruct F as (k & x & -> & ->). reflexivity.
    + rewrite F. reflexivity.
  - intros name. apply (extract_spec s' l name G1 D1).
Qed.

(** C29 *)
Theorem no_duplicate_keys l s h s' :
  obj_steps E G l s h s' -> good s l -> distinct_keys same (pairs s l) -> distinct_keys same (pairs s' l).
Proof. intros St Gd D. apply (obj_steps_spec l s h s' St Gd D). Qed.

(** ** Reading *)
Lemma lookup_frame s l name x : x <> l -> hp (snd (ValueByName E s l name)) x = hp s x.
Proof.
  intros Q. unfold ValueByName. destruct (c_dt (hp s l)); auto. unfold obj_index.
  destruct (index_by_name E (c_unesc (hp s l)) (c_kvs (hp s l)) name) as [r [u' kvs']]. cbn [snd hp set_cell].
  apply upd_other; auto.
Qed.
Lemma lookup_live s l name x : live s x -> live (snd (ValueByName E s l name)) x.
Proof.
  unfold ValueByName. destruct (c_dt (hp s l)); auto. unfold obj_index.
  destruct (index_by_name E (c_unesc (hp s l)) (c_kvs (hp s l)) name) as [r [u' kvs']]. auto.
Qed.

Lemma lookup_keeps s l m name : good s l -> distinct_keys same (pairs s l) -> (m < nx s)%nat ->
  good (snd (ValueByName E s m name)) l /\ pairs (snd (ValueByName E s m name)) l = pairs s l.
Proof.
  intros (W & L & T & SF) D M.
  assert (W' : wf (snd (ValueByName E s m name))).
  { apply (tr_ValueByName N N E s m name W). split; [exact M|apply not_N]. }
  destruct (Nat.eq_dec l m) as [<-|Q].
  - destruct (lookup_spec s l name T D) as (_ & P1 & P2 & P3 & P4). split; auto.
    split; [exact W'|split; [apply P4; exact L|]]. rewrite P2. auto.
  - unfold good_obj, HeapCalls.pairs. rewrite lookup_frame by auto. split; auto.
    split; [exact W'|split; [apply lookup_live; exact L|]]. auto.
Qed.

Lemma path_keeps paths : forall s l m, good s l -> distinct_keys same (pairs s l) -> (m < nx s)%nat ->
  good (snd (path_loop E s m paths)) l /\ pairs (snd (path_loop E s m paths)) l = pairs s l.
Proof.
  induction paths as [|key r IH]; intros s l m Gd D M; cbn [path_loop]; [auto|].
  destruct (lookup_keeps s l m key Gd D M) as [G1 P1].
  destruct (tr_ValueByName N N E s m key (proj1 Gd) (conj M (not_N m))) as [_ K].
  destruct (ValueByName E s m key) as [[l'|] s1]; cbn [fst snd] in *; [|auto].
  apply ok_ptr_some in K as [K _]. rewrite <- P1 in D. destruct (IH s1 l l' G1 D K) as [A B]. rewrite B. auto.
Qed.

Lemma read_step_spec l s s' : read_step E l s s' -> good s l -> distinct_keys same (pairs s l) ->
  good s' l /\ pairs s' l = pairs s l.
Proof.
  intros St Gd D. pose proof Gd as (W & L & T & SF). destruct St.
  - apply lookup_keeps; auto. apply L.
  - apply (path_keeps paths s l l Gd D). apply L.
  - destruct (items_spec s l i T) as (P1 & P2 & P3 & P4). rewrite P1. split; auto.
    split; [apply (tr_Items N N E s l i W (ok_of_live _ _ L))|]. rewrite P2. auto.
  - unfold HeapCalls.pairs, good_obj. rewrite H1. auto.
Qed.

(** C31 *)
Theorem reading_is_invisible l s s' : reads E l s s' -> good s l -> distinct_keys same (pairs s l) ->
  (forall name, fst (ValueByName E s' l name) = fst (ValueByName E s l name)) /\
  (forall i, fst (Items E s' l i) = fst (Items E s l i)) /\ Count s' l = Count s l.
Proof.
  intros R Gd D.
  assert (H : good s' l /\ pairs s' l = pairs s l).
  { induction R as [s|s s1 s2 R IH S1]; auto. destruct (IH Gd D) as [G1 P1].
    rewrite <- P1 in D |- *. apply (read_step_spec l s1 s2 S1 G1 D). }
  destruct H as [G1 P1]. pose proof G1 as (_ & _ & T1 & _). pose proof Gd as (_ & _ & T & _).
  assert (LEN : List.length (c_kvs (hp s' l)) = List.length (c_kvs (hp s l))).
  { assert (X : List.length (pairs s' l) = List.length (pairs s l)) by (rewrite P1; auto).
    unfold HeapCalls.pairs in X. rewrite <- !(map_length snd (unescape_keys _ _ _)), !snd_unescape_keys, !map_length in X.
    exact X. }
  split; [|split].
  - intros name. rewrite (proj1 (lookup_spec s' l name T1 ltac:(rewrite P1; exact D))), (proj1 (lookup_spec s l name T D)), P1. reflexivity.
  - intros i. unfold Items. rewrite T, T1. unfold zlen. rewrite LEN.
    destruct (_ && _); auto. cbn [fst]. unfold HeapCalls.pairs in P1. rewrite P1. reflexivity.
  - unfold Count. rewrite T, T1. unfold zlen. rewrite LEN. reflexivity.
Qed.

(** ** Paths *)
Lemma path_app p : forall q s l, path_loop E s l (p ++ q) =
  match path_loop E s l p with (Some m, s1) => path_loop E s1 m q | (None, s1) => (None, s1) end.
Proof.
  induction p as [|key p IH]; intros q s l; cbn [path_loop app]; auto.
  destruct (ValueByName E s l key) as [[m|] s1]; auto.
Qed.

Lemma walk_same s s' : (forall x, c_dt (hp s' x) = c_dt (hp s x)) -> (forall x, c_arr (hp s' x) = c_arr (hp s x)) ->
  (forall x, c_dt (hp s x) = TObject -> pairs s' x = pairs s x) ->
  forall l paths r, walk E s' l paths r -> walk E s l paths r.
Proof.
  intros HD HA HP l paths r Wk. induction Wk.
  - constructor.
  - rewrite HD in H. eapply walk_key; eauto. rewrite <- HP; eauto.
  - rewrite HD in H. eapply walk_nil_entry; eauto. rewrite <- HP; eauto.
  - rewrite HD in H. eapply walk_no_key; eauto. intros. eapply H0. rewrite HP; eauto.
  - rewrite HD in H. rewrite HA in H1. eapply walk_elem; eauto.
  - rewrite HD in H. rewrite HA in H1. eapply walk_nil_elem; eauto.
  - rewrite HD in H. rewrite HA in H0. eapply walk_no_elem; eauto.
  - rewrite HD in *. apply walk_scalar; auto.
Qed.

Lemma lookup_same s l name : all_distinct E s ->
  (forall x, c_dt (hp (snd (ValueByName E s l name)) x) = c_dt (hp s x)) /\
  (forall x, c_arr (hp (snd (ValueByName E s l name)) x) = c_arr (hp s x)) /\
  (forall x, c_dt (hp s x) = TObject -> pairs (snd (ValueByName E s l name)) x = pairs s x).
Proof.
  intros D. assert (O : forall x, x <> l -> hp (snd (ValueByName E s l name)) x = hp s x) by (intros; apply lookup_frame; auto).
  assert (L : c_dt (hp (snd (ValueByName E s l name)) l) = c_dt (hp s l) /\ c_arr (hp (snd (ValueByName E s l name)) l) = c_arr (hp s l)).
  { unfold ValueByName. destruct (c_dt (hp s l)) eqn:T; auto. unfold obj_index.
    destruct (index_by_name E (c_unesc (hp s l)) (c_kvs (hp s l)) name) as [r [u' kvs']]. cbn [snd hp set_cell].
    rewrite upd_same. auto. }
  split; [|split]; intros x; (destruct (Nat.eq_dec x l) as [->|Q]; [|unfold HeapCalls.pairs; rewrite (O x Q); auto]).
  - apply L.
  - apply L.
  - intros T. apply lookup_spec; auto.
Qed.

Lemma path_walk paths : forall s l, all_distinct E s -> walk E s l paths (fst (path_loop E s l paths)).
Proof.
  induction paths as [|key rest IH]; intros s l D; cbn [path_loop]; [constructor|].
  destruct (lookup_same s l key D) as (HD & HA & HP).
  assert (REST : forall m, walk E s m rest (fst (path_loop E (snd (ValueByName E s l key)) m rest))).
  { intros m. apply (walk_same s (snd (ValueByName E s l key)) HD HA HP). apply IH.
    intros x T. rewrite HD in T. rewrite HP; auto. }
  destruct (c_dt (hp s l)) eqn:T;
    try (replace (ValueByName E s l key) with (@None nat, s) by (unfold ValueByName; rewrite T; reflexivity);
         cbn [fst]; apply walk_scalar; rewrite T; discriminate).
  - destruct (lookup_spec s l key T (D l T)) as (V & _).
    destruct (ValueByName E s l key) as [v s1]. cbn [fst snd] in *.
    destruct (find_key E (pairs s l) key) as [i|] eqn:F.
    + apply find_key_some in F as (k & x & NE & SM). rewrite NE in V. subst v.
      apply nth_error_In in NE. destruct x as [x|].
      * eapply walk_key; eauto.
      * cbn [fst]. eapply walk_nil_entry; eauto.
    + subst v. cbn [fst]. apply walk_no_key; auto. intros k p I. eapply find_key_none; eauto.
  - assert (V : ValueByName E s l key = (if (x_str2int E key (-1) <? 0) || (zlen (c_arr (hp s l)) - 1 <? x_str2int E key (-1)) then None
       else nth (Z.to_nat (x_str2int E key (-1))) (c_arr (hp s l)) oob, s)) by (unfold ValueByName; rewrite T; reflexivity).
    rewrite V in *. clear V. cbn [snd] in REST.
    destruct ((x_str2int E key (-1) <? 0) || (zlen (c_arr (hp s l)) - 1 <? x_str2int E key (-1))) eqn:B.
    + cbn [fst]. apply walk_no_elem; auto. apply orb_true_iff in B as [B|B]; apply Z.ltb_lt in B; lia.
    + apply orb_false_iff in B as [B1 B2]. apply Z.ltb_ge in B1, B2. unfold zlen in B2.
      set (n := x_str2int E key (-1)) in *. assert (Bn : (Z.to_nat n < List.length (c_arr (hp s l)))%nat) by lia.
      destruct (nth_split (c_arr (hp s l)) oob Bn) as (a & b & Q & La).
      destruct (nth (Z.to_nat n) (c_arr (hp s l)) oob) as [x|].
      * apply (walk_elem E s l key n a b x rest); auto. unfold zlen. change ptr with (option nat) in *. fold ptr in *. lia.
      * cbn [fst]. apply (walk_nil_elem E s l key n a b rest); auto. unfold zlen. change ptr with (option nat) in *. fold ptr in *. lia.
Qed.

Lemma entry_unique s l name k1 p1 k2 p2 : all_distinct E s -> c_dt (hp s l) = TObject ->
  In (k1, p1) (pairs s l) -> same k1 name = true -> In (k2, p2) (pairs s l) -> same k2 name = true -> p1 = p2.
Proof.
  intros D T I1 S1 I2 S2. apply In_nth_error in I1 as [i Hi]. apply In_nth_error in I2 as [j Hj].
  pose proof (find_key_uniq E EO _ _ _ _ _ (D l T) Hi S1) as F1.
  pose proof (find_key_uniq E EO _ _ _ _ _ (D l T) Hj S2) as F2. congruence.
Qed.
Lemma elem_unique (a b a' b' : list ptr) x x' : a ++ x :: b = a' ++ x' :: b' -> zlen a = zlen a' -> x = x'.
Proof.
  intros Q L. unfold zlen in L. assert (L' : List.length a = List.length a') by lia.
  assert (H : nth_error (a ++ x :: b) (List.length a) = Some x) by (rewrite nth_error_app2, Nat.sub_diag; auto).
  rewrite Q, L', nth_error_app2, Nat.sub_diag in H; auto. cbn in H. congruence.
Qed.
Lemma elem_in_range (a b : list ptr) x : 0 <= zlen a < zlen (a ++ x :: b).
Proof. unfold zlen. rewrite app_length. cbn [List.length]. lia. Qed.

(** The walk is determined by the state. *)
Lemma walk_det s : all_distinct E s -> forall l paths r1, walk E s l paths r1 ->
  forall r2, walk E s l paths r2 -> r1 = r2.
Proof.
  intros D l paths r1 W1. induction W1 as [l|l key k x rest r T I S W1 IH|l key k rest T I S|l key rest T NO
    |l key i a b x rest r T Si A Z W1 IH|l key i a b rest T Si A Z|l key rest T NO|l key rest T1 T2];
  intros r2 W2;
  inversion W2 as [l'|l' key' k' x' rest' r' T' I' S' W'|l' key' k' rest' T' I' S'|l' key' rest' T' NO'
    |l' key' i' a' b' x' rest' r' T' Si' A' Z' W'|l' key' i' a' b' rest' T' Si' A' Z'|l' key' rest' T' NO'|l' key' rest' T1' T2'];
  subst l'; try subst key' rest'; try reflexivity; try congruence.
  - apply IH. assert (X : Some x = Some x') by (eapply (entry_unique s l key); eauto). injection X as ->. exact W'.
  - exfalso. assert (X : Some x = None) by (eapply (entry_unique s l key); eauto). discriminate.
  - exfalso. rewrite (NO' _ _ I) in S. discriminate.
  - exfalso. assert (X : Some x' = None) by (eapply (entry_unique s l key); eauto). discriminate.
  - exfalso. rewrite (NO _ _ I') in S'. discriminate.
  - apply IH. assert (X : Some x = Some x') by (apply (elem_unique a b a' b'); [exact (eq_trans (eq_sym A) A')|exact (eq_trans Z (eq_trans (eq_sym Si) (eq_trans Si' (eq_sym Z'))))]). injection X as ->. exact W'.
  - exfalso. assert (X : Some x = None) by (apply (elem_unique a b a' b'); [exact (eq_trans (eq_sym A) A')|exact (eq_trans Z (eq_trans (eq_sym Si) (eq_trans Si' (eq_sym Z'))))]). discriminate.
  - exfalso. apply NO'. rewrite Si, <- Z, A. apply elem_in_range.
  - exfalso. assert (X : Some x' = None) by (apply (elem_unique a' b' a b); [exact (eq_trans (eq_sym A') A)|exact (eq_trans Z' (eq_trans (eq_sym Si') (eq_trans Si (eq_sym Z))))]). discriminate.
  - exfalso. apply NO. rewrite Si', <- Z', A'. apply elem_in_range.
Qed.

(** C32 *)
Theorem path_lookup_is_walk s l paths r : all_distinct E s ->
  (fst (ValueByPath E s (Some l) paths) = r <-> walk E s l paths r).
Proof.
  intros D. split.
  - intros <-. apply path_walk; auto.
  - intros W. apply (walk_det s D l paths); auto. apply path_walk; auto.
Qed.

Theorem path_concat s p paths1 paths2 :
  ValueByPath E s p (paths1 ++ paths2) =
    let (q, s1) := ValueByPath E s p paths1 in ValueByPath E s1 q paths2.
Proof.
  destruct p as [l|]; [|reflexivity]. unfold ValueByPath. rewrite path_app.
  destruct (path_loop E s l paths1) as [[m|] s1]; reflexivity.
Qed.

(** The getters read the cell the walk arrives at, as it was before the call. *)
Lemma path_cells paths : forall s l x, c_dt (hp (snd (path_loop E s l paths)) x) = c_dt (hp s x) /\
  c_str (hp (snd (path_loop E s l paths)) x) = c_str (hp s x) /\
  c_sv (hp (snd (path_loop E s l paths)) x) = c_sv (hp s x).
Proof.
  induction paths as [|key r IH]; intros s l x; cbn [path_loop]; [auto|].
  assert (H : c_dt (hp (snd (ValueByName E s l key)) x) = c_dt (hp s x) /\
    c_str (hp (snd (ValueByName E s l key)) x) = c_str (hp s x) /\
    c_sv (hp (snd (ValueByName E s l key)) x) = c_sv (hp s x)).
  { destruct (Nat.eq_dec x l) as [->|Q]; [|rewrite lookup_frame by auto; auto].
    unfold ValueByName. destruct (c_dt (hp s l)) eqn:T; cbn [snd]; auto. unfold obj_index.
    destruct (index_by_name E (c_unesc (hp s l)) (c_kvs (hp s l)) key) as [i [u' kvs']]. cbn [snd hp set_cell].
    rewrite upd_same. auto. }
  destruct (ValueByName E s l key) as [[m|] s1]; cbn [snd] in *; auto.
  destruct H as (H1 & H2 & H3). rewrite <- H1, <- H2, <- H3. apply IH.
Qed.

Theorem path_getters s l paths : all_distinct E s ->
  (walk E s l paths None ->
     (forall d, fst (IntByPath E s (Some l) d paths) = d) /\ (forall d, fst (BoolByPath E s (Some l) d paths) = d) /\
     (forall d, fst (DoubleByPath E s (Some l) d paths) = d) /\ (forall d, fst (StringByPath E s (Some l) d paths) = d)) /\
  (forall m, walk E s l paths (Some m) ->
     (forall d, fst (IntByPath E s (Some l) d paths) = Int E (hp s m)) /\
     (forall d, fst (BoolByPath E s (Some l) d paths) = Bool E (hp s m)) /\
     (forall d, fst (DoubleByPath E s (Some l) d paths) = Double E (hp s m)) /\
     (forall d, fst (StringByPath E s (Some l) d paths) = fst (StringOf E (hp s m)))).
Proof.
  intros D. unfold IntByPath, BoolByPath, DoubleByPath, StringByPath. split.
  - intros W. apply (path_lookup_is_walk s l paths None D) in W.
    destruct (ValueByPath E s (Some l) paths) as [[m|] s1]; [discriminate|]. auto.
  - intros m W. apply (path_lookup_is_walk s l paths (Some m) D) in W.
    destruct (path_cells paths s l m) as (H1 & H2 & H3). unfold ValueByPath in *.
    destruct (path_loop E s l paths) as [q s1]; cbn [fst snd] in *. subst q.
    unfold Int, Bool, Double, StringOf. rewrite H1, H2, H3. repeat split; intros _; auto.
    destruct (c_dt (hp s m)); reflexivity.
Qed.

End Obj.
