(** Arrays under sequences of API calls. *)
From Verif Require Import Base Values Tactics HeapModel HeapSpec HeapBase HeapConf HeapGet ApiSpec HeapMap HeapCalls HeapObj.

Section Arr.
Variable E : env.
Variable G : nat -> nat.
Notation N := none_set.
Notation good := (good_arr).

Lemma set_nth_replaced (a : list ptr) i x : 0 <= i < zlen a -> replaced i x a (set_nth (Z.to_nat i) x a).
Proof.
  intros B. unfold zlen in B. revert B. set (n := Z.to_nat i). intros B.
  assert (Hn : (n < List.length a)%nat) by (unfold n; lia). assert (Hi : i = Z.of_nat n) by (unfold n; lia).
  clearbody n. subst i. clear B. revert n Hn.
  induction a as [|y a IH]; intros n Hn; [cbn in Hn; lia|].
  destruct n as [|n].
  - exists [], y, a. auto.
  - destruct (IH n) as (p & z & q & Q1 & Q2 & Q3); [cbn in Hn; lia|].
    exists (y :: p), z, q. cbn [set_nth]. subst a. rewrite Q3. split; [|split]; auto.
    unfold zlen in *. cbn [List.length]. lia.
Qed.
Lemma remove_removed (a : list ptr) i : 0 <= i < zlen a -> removed i a (remove_at (Z.to_nat i) a).
Proof.
  intros B. unfold zlen in B. revert B. set (n := Z.to_nat i). intros B.
  assert (Hn : (n < List.length a)%nat) by (unfold n; lia). assert (Hi : i = Z.of_nat n) by (unfold n; lia).
  clearbody n. subst i. clear B. revert n Hn.
  induction a as [|y a IH]; intros n Hn; [cbn in Hn; lia|].
  destruct n as [|n].
  - exists [], y, a. auto.
  - destruct (IH n) as (p & z & q & Q1 & Q2 & Q3); [cbn in Hn; lia|].
    exists (y :: p), z, q. cbn [remove_at] in *. subst a. split; [|split]; auto.
    + unfold zlen in *. cbn [List.length]. lia.
    + cbn [app]. f_equal. exact Q3.
Qed.

Lemma range_dec i (a : list ptr) : (0 <=? i) && (i <? zlen a) = true <-> 0 <= i < zlen a.
Proof. rewrite andb_true_iff, Z.leb_le, Z.ltb_lt. reflexivity. Qed.
Lemma range_not i (a : list ptr) : (0 <=? i) && (i <? zlen a) = false -> ~ 0 <= i < zlen a.
Proof. intros H B. apply range_dec in B. congruence. Qed.

Lemma In_replaced (a b : list ptr) i x y : replaced i x a b -> In y b -> y = x \/ In y a.
Proof.
  intros (p & z & q & -> & _ & ->) H. apply in_app_or in H as [H|[H|H]]; auto; right; apply in_or_app; [auto|right; right; auto].
Qed.
Lemma self_not_set (l : nat) a b i x : ~ In (Some l) a -> x <> Some l -> set_or_append i x a b -> ~ In (Some l) b.
Proof.
  intros H X [[_ R]|[_ ->]] I.
  - apply (In_replaced _ _ _ _ _ R) in I as [I|I]; auto.
  - apply in_app_or in I as [I|[I|[]]]; auto.
Qed.

Lemma arr_write s l a : wf (set_cell s l (w_arr (hp s l) a)) -> live s l -> c_dt (hp s l) = TArray -> ~ In (Some l) a ->
  good (set_cell s l (w_arr (hp s l) a)) l /\ c_arr (hp (set_cell s l (w_arr (hp s l) a)) l) = a.
Proof.
  intros W L T S. cbn [hp set_cell]. rewrite upd_same. split; [|reflexivity].
  split; [exact W|split; [exact L|]]. cbn [hp set_cell]. rewrite upd_same. auto.
Qed.

Lemma arr_set_cached_spec s l i t c r s' : good s l -> ok_cache N s c -> SetIndexCached G s l i t c = (r, s') ->
  good s' l /\ set_or_append i (Some r) (c_arr (hp s l)) (c_arr (hp s' l)).
Proof.
  intros (W & L & T & SF) OC H.
  assert (W' : wf s').
  { destruct (tr_SetIndexCached N N G s l i t c W (ok_of_live _ _ L) OC) as [TR _]. rewrite H in TR. apply TR. }
  unfold SetIndexCached in H. rewrite T in H. change (vt_eqb TArray TArray) with true in H. cbv iota zeta in H.
  pose proof (good_5 s l W (or_intror T)) as L5.
  pose proof (getValue_got G s c t W OC) as GV.
  destruct ((0 <=? i) && (i <? zlen (c_arr (hp s l)))) eqn:B.
  - apply range_dec in B.
    assert (PUT : forall r' s2, getValue G s c t = (r', s2) ->
       (r', set_cell s2 l (w_arr (hp s2 l) (set_nth (Z.to_nat i) (Some r') (c_arr (hp s2 l))))) = (r, s') ->
       good s' l /\ set_or_append i (Some r) (c_arr (hp s l)) (c_arr (hp s' l))).
    { intros r' s2 Q H'. rewrite Q in GV. cbn [fst snd] in GV. injection H' as <- <-.
      destruct (got_frame _ _ _ _ l GV L) as [F RN].
      assert (SA : set_or_append i (Some r') (c_arr (hp s l)) (set_nth (Z.to_nat i) (Some r') (c_arr (hp s2 l)))).
      { left. split; auto. rewrite F. apply set_nth_replaced; auto. }
      destruct (arr_write s2 l (set_nth (Z.to_nat i) (Some r') (c_arr (hp s2 l)))) as [A1 A2]; auto.
      - apply (g_lives _ _ _ _ GV l L).
      - rewrite F. auto.
      - eapply self_not_set; [exact SF| |exact SA]. congruence.
      - split; [exact A1|]. rewrite A2. exact SA. }
    unfold zlen in B. assert (Hi : (Z.to_nat i < List.length (c_arr (hp s l)))%nat) by lia.
    destruct (nth (Z.to_nat i) (c_arr (hp s l)) None) as [r0|] eqn:NT.
    + assert (In0 : In (Some r0) (c_arr (hp s l))) by (rewrite <- NT; apply nth_In; exact Hi).
      assert (R0 : r0 <> l) by (intros ->; auto).
      assert (KEEP : forall s3, hp s3 l = hp s l -> live s3 l -> wf s3 ->
         good s3 l /\ set_or_append i (Some r0) (c_arr (hp s l)) (c_arr (hp s3 l))).
      { intros s3 F L3 W3. unfold good_arr. rewrite F. split; [auto|]. left. split; [exact B|].
        destruct (nth_split (c_arr (hp s l)) None Hi) as (a & b & Q & La). rewrite NT in Q.
        exists a, (Some r0), b. split; [exact Q|]. split; [|exact Q]. unfold zlen.
        transitivity (Z.of_nat (Z.to_nat i)); [f_equal; exact La|lia]. }
      destruct (vt_eqb (c_dt (hp s r0)) t).
      * injection H as <- <-. auto.
      * destruct (ReadOnly r0) eqn:RO.
        -- destruct (getValue G s c t) as [r' s2] eqn:Q. eapply PUT; eauto.
        -- injection H as <- <-. unfold Reset in *. rewrite RO in *.
           apply KEEP; auto. cbn [hp set_cell]. apply upd_other. auto.
    + destruct (getValue G s c t) as [r' s2] eqn:Q. eapply PUT; eauto.
  - apply range_not in B. destruct (getValue G s c t) as [r' s2] eqn:Q. cbn [fst snd] in GV. injection H as <- <-.
    destruct (got_frame _ _ _ _ l GV L) as [F RN].
    assert (SA : set_or_append i (Some r') (c_arr (hp s l)) (c_arr (hp s2 l) ++ [Some r'])).
    { right. split; auto. rewrite F. reflexivity. }
    destruct (arr_write s2 l (c_arr (hp s2 l) ++ [Some r'])) as [A1 A2]; auto.
    + apply (g_lives _ _ _ _ GV l L).
    + rewrite F. auto.
    + eapply self_not_set; [exact SF| |exact SA]. congruence.
    + split; [exact A1|]. rewrite A2. exact SA.
Qed.

Lemma arr_value_spec s l i p : good s l -> p <> Some l -> stored s p ->
  good (SetIndexValue s l i p) l /\ set_or_append i p (c_arr (hp s l)) (c_arr (hp (SetIndexValue s l i p) l)).
Proof.
  intros (W & L & T & SF) NP ST.
  assert (KP : ok_ptr N s p) by (intros x Q; split; [apply ST; auto|apply not_N]).
  assert (W' : wf (SetIndexValue s l i p)) by (apply (tr_SetIndexValue N N s l i p W (ok_of_live _ _ L) KP)).
  unfold SetIndexValue in *. rewrite T in *. change (vt_eqb TArray TArray) with true in *. cbv iota zeta in *.
  destruct ((0 <=? i) && (i <? zlen (c_arr (hp s l)))) eqn:B.
  - apply range_dec in B.
    assert (SA : set_or_append i p (c_arr (hp s l)) (set_nth (Z.to_nat i) p (c_arr (hp s l)))) by (left; split; [exact B|apply set_nth_replaced; exact B]).
    destruct (arr_write s l (set_nth (Z.to_nat i) p (c_arr (hp s l)))) as [A1 A2]; auto.
    + eapply self_not_set; [exact SF|exact NP|exact SA].
    + split; [exact A1|]. exact (eq_ind_r (set_or_append i p (c_arr (hp s l))) SA A2).
  - apply range_not in B.
    assert (SA : set_or_append i p (c_arr (hp s l)) (c_arr (hp s l) ++ [p])) by (right; auto).
    destruct (arr_write s l (c_arr (hp s l) ++ [p])) as [A1 A2]; auto.
    + eapply self_not_set; [exact SF|exact NP|exact SA].
    + split; [exact A1|]. exact (eq_ind_r (set_or_append i p (c_arr (hp s l))) SA A2).
Qed.

Lemma new_spec s t r s2 : wf s -> NewValue s t = (r, s2) ->
  ((nx s <= r)%nat \/ (r < 5)%nat) /\ (forall x, (x < nx s)%nat -> hp s2 x = hp s x) /\ (forall x, live s x -> live s2 x).
Proof.
  intros W H. unfold NewValue in H.
  destruct t; injection H as <- <-; unfold loc_true, loc_false, loc_null, loc_inf, loc_nan; (split; [lia|]);
    cbn [hp]; (split; [|intros x [X1 X2]; split; [cbn [nx]; lia|exact X2]]);
    intros x X; auto; apply upd_other; lia.
Qed.

Lemma insert_spec s l i t r s' : good s l -> InsertValue s l i t = (r, s') ->
  good s' l /\ insert_clamped i (Some r) (c_arr (hp s l)) (c_arr (hp s' l)).
Proof.
  intros (W & L & T & SF) H.
  assert (W' : wf s').
  { destruct (tr_InsertValue N N s l i t W (ok_of_live _ _ L)) as [TR _]. rewrite H in TR. apply TR. }
  unfold InsertValue in H. rewrite T in H. change (vt_eqb TArray TArray) with true in H. cbv iota zeta in H.
  destruct (NewValue s t) as [r' s2] eqn:NV. injection H as <- <-.
  destruct (new_spec s t r' s2 W NV) as (R1 & F & LS). pose proof (F l (proj1 L)) as Fl.
  rewrite Fl in *. set (a := c_arr (hp s l)) in *.
  set (i0 := if i <? 0 then 0 else i) in *.
  set (a' := if i0 <? zlen a then firstn (Z.to_nat i0) a ++ Some r' :: skipn (Z.to_nat i0) a else a ++ [Some r']) in *.
  assert (SA : insert_clamped i (Some r') a a').
  { unfold insert_clamped, inserted, a', i0. destruct (i <? 0) eqn:B0.
    - apply Z.ltb_lt in B0. exists [], a. split; [reflexivity|]. split; [cbn; unfold zlen; lia|].
      destruct (0 <? zlen a) eqn:B1; [reflexivity|]. apply Z.ltb_ge in B1. unfold zlen in B1.
      destruct a; [reflexivity|cbn [List.length] in B1; lia].
    - apply Z.ltb_ge in B0. destruct (i <? zlen a) eqn:B1.
      + apply Z.ltb_lt in B1. exists (firstn (Z.to_nat i) a), (skipn (Z.to_nat i) a).
        split; [symmetry; apply firstn_skipn|]. split; [|reflexivity].
        unfold zlen in *. rewrite firstn_length. lia.
      + apply Z.ltb_ge in B1. exists a, []. rewrite app_nil_r. split; [reflexivity|]. split; [|reflexivity]. unfold zlen in *. lia. }
  rewrite <- Fl in W' |- *.
  destruct (arr_write s2 l a') as [A1 A2]; auto.
  - rewrite Fl. auto.
  - destruct SA as (p & q & Q1 & _ & Q2). rewrite Q2. intros X. apply SF. fold a. rewrite Q1.
    apply in_app_or in X as [X|[X|X]]; [apply in_or_app; auto| |apply in_or_app; auto].
    exfalso. injection X as X. destruct L as [L _]. pose proof (good_5 s l W (or_intror T)). lia.
  - split; [exact A1|]. rewrite A2. exact SA.
Qed.

Lemma remove_index_spec s l i : good s l ->
  good (RemoveIndex s l i) l /\ remove_or_skip i (c_arr (hp s l)) (c_arr (hp (RemoveIndex s l i) l)).
Proof.
  intros (W & L & T & SF).
  assert (W' : wf (RemoveIndex s l i)) by (apply (tr_RemoveIndex N N s l i W (ok_of_live _ _ L))).
  unfold RemoveIndex in *. rewrite T in *. change (vt_eqb TArray TArray) with true in *. cbn [andb] in *.
  destruct ((0 <=? i) && (i <? zlen (c_arr (hp s l)))) eqn:B.
  - apply range_dec in B.
    destruct (arr_write s l (remove_at (Z.to_nat i) (c_arr (hp s l)))) as [A1 A2]; auto.
    + intros X. apply In_remove_at in X. auto.
    + split; [exact A1|]. rewrite A2. left. split; [exact B|]. apply remove_removed; exact B.
  - apply range_not in B. split; [unfold good_arr; auto|]. right; auto.
Qed.

Lemma arr_step_spec l s R s' : arr_step E G l s R s' -> good s l -> good s' l /\ R (c_arr (hp s l)) (c_arr (hp s' l)).
Proof.
  intros St Gd. pose proof Gd as (W & L & T & SF). destruct St as
    [s i t r s' H|s i t d r s' D H|s i p NP ST|s i t r s' H|s t r s' Z H|s i|s name|s i|s s' W' L' F].
  - eapply arr_set_cached_spec; eauto. apply own_okc; auto.
  - eapply arr_set_cached_spec; eauto. apply own_okc; auto.
  - apply arr_value_spec; auto.
  - eapply insert_spec; eauto.
  - destruct (insert_spec s l _ t r s' Gd H) as [A B]. split; [exact A|].
    destruct B as (p & q & Q1 & Q2 & Q3). rewrite Z.min_r, Z.max_r in Q2 by (unfold zlen in *; lia).
    assert (q = []) as ->.
    { rewrite Q1 in Q2. unfold zlen in Q2. rewrite app_length in Q2. destruct q; [auto|]. cbn [List.length] in Q2. lia. }
    rewrite app_nil_r in Q1. rewrite Q3, Q1. reflexivity.
  - apply remove_index_spec; auto.
  - unfold ValueByName. rewrite T. cbn [snd]. auto.
  - unfold Items. rewrite T. cbn [snd]. auto.
  - unfold good_arr. rewrite F. auto.
Qed.

(** C30 *)
Theorem arrays_are_lists l s R s' : arr_steps E G l s R s' -> good s l ->
  good s' l /\ R (c_arr (hp s l)) (c_arr (hp s' l)).
Proof.
  intros St. induction St as [s|s R1 s1 R2 s2 S1 IH S2]; intros Gd; [auto|].
  destruct (IH Gd) as [G1 H1]. destruct (arr_step_spec l s1 R2 s2 S2 G1) as [G2 H2]. split; [exact G2|].
  exists (c_arr (hp s1 l)). auto.
Qed.

(** What the readers show is the list. *)
Theorem array_readers s l : good s l ->
  Count s l = zlen (c_arr (hp s l)) /\
  (forall i p q x, c_arr (hp s l) = p ++ x :: q -> zlen p = i ->
     ValueByIndex s l i = x /\ fst (Items E s l i) = ([], x)) /\
  (forall i, ~ 0 <= i < zlen (c_arr (hp s l)) -> ValueByIndex s l i = None /\ fst (Items E s l i) = ([], None)).
Proof.
  intros (W & L & T & SF). unfold Count, ValueByIndex, Items. rewrite T. split; [reflexivity|]. split.
  - intros i p q x Q Z.
    assert (B : (0 <=? i) && (i <? zlen (c_arr (hp s l))) = true).
    { apply range_dec. rewrite Q, <- Z. unfold zlen. rewrite app_length. cbn [List.length]. lia. }
    assert (NT : nth (Z.to_nat i) (c_arr (hp s l)) oob = x).
    { rewrite Q. unfold zlen in Z. rewrite app_nth2 by lia.
      replace (Z.to_nat i - List.length p)%nat with 0%nat by lia. reflexivity. }
    rewrite B, NT. auto.
  - intros i B.
    assert (X : (0 <=? i) && (i <? zlen (c_arr (hp s l))) = false).
    { destruct (_ && _) eqn:Y; auto. apply range_dec in Y. contradiction. }
    rewrite X. auto.
Qed.

(** What the readers of an object show: the pairs, in order. *)
Theorem object_readers s l : c_dt (hp s l) = TObject ->
  Count s l = zlen (pairs E s l) /\
  (forall p kv q, pairs E s l = p ++ kv :: q ->
     fst (Items E s l (zlen p)) = kv /\ ValueByIndex s l (zlen p) = snd kv /\
     KeyNameByIndex (snd (Items E s l (zlen p))) l (zlen p) = fst kv /\
     pairs E (snd (Items E s l (zlen p))) l = pairs E s l) /\
  (forall i, ~ 0 <= i < zlen (pairs E s l) ->
     Items E s l i = (([], None), s) /\ ValueByIndex s l i = None /\ KeyNameByIndex s l i = []).
Proof.
  intros T.
  assert (SN : map snd (pairs E s l) = map snd (c_kvs (hp s l))) by apply snd_unescape_keys.
  assert (LN : List.length (c_kvs (hp s l)) = List.length (pairs E s l)).
  { rewrite <- (map_length snd (pairs E s l)), SN, map_length. reflexivity. }
  assert (ZL : zlen (c_kvs (hp s l)) = zlen (pairs E s l)) by (unfold zlen; rewrite LN; reflexivity).
  unfold Count, ValueByIndex, Items. rewrite T, ZL. split; [reflexivity|]. split.
  - intros p kv q Q.
    assert (B : (0 <=? zlen p) && (zlen p <? zlen (pairs E s l)) = true).
    { apply andb_true_iff. rewrite Z.leb_le, Z.ltb_lt. rewrite Q. unfold zlen. rewrite app_length. cbn [List.length]. lia. }
    assert (NT : nth (Z.to_nat (zlen p)) (pairs E s l) oob_kv = kv).
    { rewrite Q. unfold zlen. rewrite Nat2Z.id, app_nth2, Nat.sub_diag by lia. reflexivity. }
    assert (NV : snd (nth (Z.to_nat (zlen p)) (c_kvs (hp s l)) oob_kv) = snd kv).
    { rewrite <- NT, <- (map_nth snd (c_kvs (hp s l))), <- (map_nth snd (pairs E s l)). f_equal. congruence. }
    rewrite B, NV. cbn [fst snd]. fold (pairs E s l). rewrite NT. split; [reflexivity|]. split; [reflexivity|].
    unfold KeyNameByIndex. cbn [set_cell hp]. unfold upd. rewrite Nat.eqb_refl.
    cbn [w_obj c_dt c_kvs c_unesc]. rewrite T, B. split; [exact (f_equal fst NT)|].
    unfold pairs at 1. cbn [set_cell hp]. unfold upd. rewrite Nat.eqb_refl. reflexivity.
  - intros i B.
    assert (X : (0 <=? i) && (i <? zlen (pairs E s l)) = false).
    { destruct (_ && _) eqn:Y; auto. apply andb_true_iff in Y. rewrite Z.leb_le, Z.ltb_lt in Y. contradiction. }
    unfold KeyNameByIndex. rewrite T, ZL, X. auto.
Qed.
End Arr.
