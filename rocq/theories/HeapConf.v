(** Every API call keeps the state invariant and touches nothing of the protected part. *)
From Verif Require Import Base Values Tactics HeapModel MsgPackModel MsgLoadModel JsonModel JsonLoadModel ReflectModel ReflectInd BsonModel BsonLoadModel EncodeModel HeapSpec HeapBase HeapGet.

Lemma ok_pair {A B} (a a' : A) (b b' : B) : Ok (a, b) = Ok (a', b') -> a = a' /\ b = b'.
Proof. intros H; injection H; auto. Qed.

Section Conf.
Variables P PC : nat_set.
Variable E : env.
Variable G : nat -> nat.
Notation tr := (tr P PC).
Notation inv := (inv P PC).
Notation ok_loc := (ok_loc P).
Notation ok_ptr := (ok_ptr P).
Notation ok_cache := (ok_cache PC).
Notation ok_cell := (ok_cell P PC).

Lemma tr_inv s s' : tr s s' -> inv s'. Proof. intros H; apply H. Qed.

Lemma own_ok s l : inv s -> ok_loc s l -> ok_cache s (c_own (hp s l)).
Proof. intros I O. apply (cell_ok_at P PC s l); auto. Qed.
Lemma child_ok s l x : inv s -> ok_loc s l -> child (hp s l) x -> ok_loc s x.
Proof. intros I O H. eapply (cell_ok_at P PC s l); eauto. Qed.

Lemma kv_child c i k l : nth_error (c_kvs c) i = Some (k, Some l) -> child c l.
Proof. intros H. left. apply nth_error_In in H. apply (in_map snd) in H. exact H. Qed.
Lemma arr_child c i l : nth_error (c_arr c) i = Some (Some l) -> child c l.
Proof. intros H. right. apply nth_error_In in H. exact H. Qed.
Lemma kv_ptr_ok s l i k p : inv s -> ok_loc s l -> nth_error (c_kvs (hp s l)) i = Some (k, p) -> ok_ptr s p.
Proof. intros I O H x ->. eapply child_ok; eauto. eapply kv_child; eauto. Qed.
Lemma arr_ptr_ok s l i p : inv s -> ok_loc s l -> nth_error (c_arr (hp s l)) i = Some p -> ok_ptr s p.
Proof. intros I O H x ->. eapply child_ok; eauto. eapply arr_child; eauto. Qed.
Lemma arr_nth_ok s l i d : inv s -> ok_loc s l -> ok_ptr s d -> ok_ptr s (nth i (c_arr (hp s l)) d).
Proof.
  intros I O D x Q. destruct (nth_in_or_default i (c_arr (hp s l)) d) as [H|H]; rewrite Q in H; [|apply D; auto].
  eapply child_ok; eauto. right. exact H.
Qed.
Lemma oob_ok s : inv s -> ok_ptr s oob.
Proof. intros I. apply ok_ptr_some. apply (const_ok P PC); auto. unfold loc_true; lia. Qed.
Lemma kv_nth_ok s l i : inv s -> ok_loc s l -> ok_ptr s (snd (nth i (c_kvs (hp s l)) oob_kv)).
Proof.
  intros I O x Q. destruct (nth_in_or_default i (c_kvs (hp s l)) oob_kv) as [H|H].
  - eapply child_ok; eauto. left. apply (in_map snd) in H. rewrite Q in H. exact H.
  - rewrite H in Q. exact (oob_ok s I x Q).
Qed.

(** Cells written by the code. *)
Lemma okc_obj s c u kvs sp : ok_cell s c -> (forall x, In (Some x) (map snd kvs) -> ok_loc s x) ->
  ok_cell s (w_obj c u kvs sp).
Proof.
  intros [A B] H. split; [|exact B]. intros x [X|X]; auto. apply A. right; exact X.
Qed.
Lemma okc_obj_sub s c u kvs sp : ok_cell s c ->
  (forall x, In x (map snd kvs) -> In x (map snd (c_kvs c))) -> ok_cell s (w_obj c u kvs sp).
Proof. intros [A B] H. apply okc_obj; [split; auto|]. intros x X. apply A. left. auto. Qed.
Lemma okc_arr s c a : ok_cell s c -> (forall x, In (Some x) a -> ok_loc s x) -> ok_cell s (w_arr c a).
Proof. intros [A B] H. split; [|exact B]. intros x [X|X]; auto. apply A. left; exact X. Qed.
Lemma okc_sv s c v : ok_cell s c -> ok_cell s (w_sv c v). Proof. intros H; exact H. Qed.
Lemma okc_str s c v : ok_cell s c -> ok_cell s (w_str c v). Proof. intros H; exact H. Qed.
Lemma okc_dt s c v : ok_cell s c -> ok_cell s (w_dt c v). Proof. intros H; exact H. Qed.
Lemma okc_push s c k p : ok_cell s c -> ok_ptr s p -> ok_cell s (push_kv G c k p).
Proof.
  intros [A B] H. unfold push_kv.
  destruct (c_spare c); (apply okc_obj; [split; auto|]); intros x; rewrite map_app; intros X;
    apply in_app_or in X as [X|[X|[]]]; try (apply A; left; exact X); simpl in X; subst; apply H; auto.
Qed.
Lemma okc_set_val s c u i p : ok_cell s c -> ok_ptr s p ->
  ok_cell s (w_obj c u (set_val i p (c_kvs c)) (c_spare c)).
Proof.
  intros [A B] H. apply okc_obj; [split; auto|]. intros x X.
  apply In_snd_set_val in X as [X|X]; [apply H; auto|apply A; left; exact X].
Qed.
Lemma okc_remove s c i : ok_cell s c -> ok_cell s (remove_kv c i).
Proof.
  intros H. apply okc_obj_sub; auto. intros x. rewrite map_remove_at. apply In_remove_at.
Qed.
Lemma okc_app s c p : ok_cell s c -> ok_ptr s p -> ok_cell s (w_arr c (c_arr c ++ [p])).
Proof.
  intros [A B] H. apply okc_arr; [split; auto|]. intros x X.
  apply in_app_or in X as [X|[X|[]]]; [apply A; right; exact X|subst; apply H; auto].
Qed.
Lemma okc_set_nth s c i p : ok_cell s c -> ok_ptr s p -> ok_cell s (w_arr c (set_nth i p (c_arr c))).
Proof.
  intros [A B] H. apply okc_arr; [split; auto|]. intros x X.
  apply In_set_nth in X as [X|X]; [subst; apply H; auto|apply A; right; exact X].
Qed.

Ltac cok := apply (cell_ok_at P PC); assumption.

(** Writing to an unprotected cell without changing its type. *)
Lemma tr_write s l c : inv s -> ok_loc s l -> ok_cell s c -> c_dt c = c_dt (hp s l) -> tr s (set_cell s l c).
Proof. intros. apply tr_set_cell; auto. Qed.

Lemma dt_push c k p : c_dt (push_kv G c k p) = c_dt c.
Proof. unfold push_kv. destruct (c_spare c); reflexivity. Qed.

Lemma tr_obj_index s l name : inv s -> ok_loc s l -> tr s (snd (obj_index E s l name)).
Proof.
  intros I O. unfold obj_index.
  pose proof (snd_index_by_name E (c_unesc (hp s l)) (c_kvs (hp s l)) name) as H.
  destruct (index_by_name E (c_unesc (hp s l)) (c_kvs (hp s l)) name) as [r [u' kvs']].
  cbn [fst snd] in *. apply tr_write; auto. apply okc_obj_sub; [cok|]. rewrite H. auto.
Qed.

(** Chaining: [st_step H] turns a transition from the current state into the new current state. *)
Lemma ok_loc_tr' s s' l : tr s s' -> ok_loc s l -> ok_loc s' l.
Proof. apply ok_loc_tr. Qed.

Lemma tr_ValueByName s l name : inv s -> ok_loc s l ->
  tr s (snd (ValueByName E s l name)) /\ ok_ptr (snd (ValueByName E s l name)) (fst (ValueByName E s l name)).
Proof.
  intros I O. unfold ValueByName. pose proof (tr_refl P PC s I) as R.
  destruct (c_dt (hp s l)); cbn [fst snd]; try (split; [exact R|apply ok_ptr_none]).
  - pose proof (tr_obj_index s l name I O) as T. destruct (obj_index E s l name) as [r s1].
    cbn [fst snd] in *. split; auto.
    destruct r as [i|]; [|apply ok_ptr_none].
    destruct (nth_error (c_kvs (hp s1 l)) i) as [[k p]|] eqn:Q; [|apply ok_ptr_none].
    eapply kv_ptr_ok; [apply T| |exact Q]. eapply ok_loc_tr; eauto.
  - split; auto. destruct (_ || _); [apply ok_ptr_none|]. apply arr_nth_ok; auto; apply oob_ok; auto.
Qed.

Lemma tr_path s l paths : inv s -> ok_loc s l ->
  tr s (snd (path_loop E s l paths)) /\ ok_ptr (snd (path_loop E s l paths)) (fst (path_loop E s l paths)).
Proof.
  revert s l; induction paths as [|key r IH]; intros s l I O; cbn [path_loop].
  - cbn [fst snd]. split; [apply tr_refl; auto|]. apply ok_ptr_some; auto.
  - destruct (tr_ValueByName s l key I O) as [T K]. destruct (ValueByName E s l key) as [[l'|] s1]; cbn [fst snd] in *.
    + apply ok_ptr_some in K. destruct (IH s1 l') as [T2 K2]; auto; [apply T|]. split; auto.
      exact (tr_trans P PC _ _ _ T T2).
    + split; auto.
Qed.

Lemma tr_ensure (b : bool) s l t : inv s -> ok_loc s l -> tr s (if b then s else Reset s l t).
Proof. intros I O. destruct b; [apply tr_refl; auto|apply tr_Reset; auto]. Qed.

Lemma tr_SetIndexValue s l i p : inv s -> ok_loc s l -> ok_ptr s p -> tr s (SetIndexValue s l i p).
Proof.
  intros I O K. unfold SetIndexValue.
  pose proof (tr_ensure (vt_eqb (c_dt (hp s l)) TArray) s l TArray I O) as T.
  set (s1 := if vt_eqb _ _ then s else Reset s l TArray) in *. clearbody s1.
  assert (I1 : inv s1) by apply T. pose proof (ok_loc_tr P PC _ _ _ T O) as O1.
  pose proof (ok_ptr_tr P PC _ _ _ T K) as K1.
  destruct (_ && _); (refine (tr_trans P PC _ _ _ T _); apply tr_write; auto).
  - apply okc_set_nth; auto; cok.
  - apply okc_app; auto; cok.
Qed.

Lemma tr_SetIndexCached s l i t c : inv s -> ok_loc s l -> ok_cache s c ->
  tr s (snd (SetIndexCached G s l i t c)) /\ ok_loc (snd (SetIndexCached G s l i t c)) (fst (SetIndexCached G s l i t c)).
Proof.
  intros I O C. unfold SetIndexCached.
  pose proof (tr_ensure (vt_eqb (c_dt (hp s l)) TArray) s l TArray I O) as T.
  set (s1 := if vt_eqb _ _ then s else Reset s l TArray) in *. clearbody s1.
  assert (I1 : inv s1) by apply T. pose proof (ok_loc_tr P PC _ _ _ T O) as O1.
  pose proof (ok_cache_tr P PC _ _ _ T C) as C1.
  destruct (tr_getValue P PC G s1 c t I1 C1) as (T2 & O2 & _).
  destruct (getValue G s1 c t) as [r' s2] eqn:Q. cbn [fst snd] in T2, O2.
  assert (I2 : inv s2) by apply T2. pose proof (ok_loc_tr P PC _ _ _ T2 O1) as O12.
  assert (T3 : tr s2 (set_cell s2 l (w_arr (hp s2 l) (set_nth (Z.to_nat i) (Some r') (c_arr (hp s2 l)))))).
  { apply tr_write; auto. apply okc_set_nth; [cok|]. apply ok_ptr_some; auto. }
  assert (T4 : tr s2 (set_cell s2 l (w_arr (hp s2 l) (c_arr (hp s2 l) ++ [Some r'])))).
  { apply tr_write; auto. apply okc_app; [cok|]. apply ok_ptr_some; auto. }
  pose proof (tr_trans P PC _ _ _ T (tr_trans P PC _ _ _ T2 T3)) as T13.
  pose proof (tr_trans P PC _ _ _ T (tr_trans P PC _ _ _ T2 T4)) as T14.
  destruct (_ && _).
  - pose proof (arr_nth_ok s1 l (Z.to_nat i) None I1 O1 (ok_ptr_none P s1)) as K.
    destruct (nth (Z.to_nat i) (c_arr (hp s1 l)) None) as [r|].
    + apply ok_ptr_some in K. destruct (vt_eqb (c_dt (hp s1 r)) t); [split; auto|].
      destruct (ReadOnly r); cbn [fst snd].
      * split; [exact T13|exact (ok_loc_tr P PC _ _ _ T3 O2)].
      * pose proof (tr_Reset P PC s1 r t I1 K) as T5.
        split; [exact (tr_trans P PC _ _ _ T T5)|exact (ok_loc_tr P PC _ _ _ T5 K)].
    + cbn [fst snd]. split; [exact T13|exact (ok_loc_tr P PC _ _ _ T3 O2)].
  - cbn [fst snd]. split; [exact T14|exact (ok_loc_tr P PC _ _ _ T4 O2)].
Qed.

Lemma tr_SetKeyCached s l name t c r s' : inv s -> ok_loc s l -> ok_cache s c ->
  SetKeyCached E G s l name t c = Ok (r, s') -> tr s s' /\ ok_loc s' r.
Proof.
  intros I O C H. unfold SetKeyCached in H. cbv zeta in H.
  destruct (vt_eqb (c_dt (hp s l)) TArray && negb (x_str2int E name (-1) =? -1)).
  - unfold SetIndex in H. pose proof (tr_SetIndexCached s l (x_str2int E name (-1)) t (c_own (hp s l)) I O (own_ok s l I O)) as T.
    destruct (SetIndexCached G s l (x_str2int E name (-1)) t (c_own (hp s l))) as [r0 s0].
    injection H as <- <-. exact T.
  - pose proof (tr_ensure (vt_eqb (c_dt (hp s l)) TObject) s l TObject I O) as T.
    set (s1 := if vt_eqb _ _ then s else Reset s l TObject) in *. clearbody s1.
    assert (I1 : inv s1) by apply T. pose proof (ok_loc_tr P PC _ _ _ T O) as O1.
    pose proof (tr_obj_index s1 l name I1 O1) as T2.
    destruct (obj_index E s1 l name) as [ri s2]. cbn [snd] in T2.
    assert (I2 : inv s2) by apply T2. pose proof (ok_loc_tr P PC _ _ _ T2 O1) as O2.
    pose proof (tr_trans P PC _ _ _ T T2) as T12.
    pose proof (ok_cache_tr P PC _ _ _ T12 C) as C2.
    destruct (tr_getValue P PC G s2 c t I2 C2) as (T3 & O3 & _).
    destruct (getValue G s2 c t) as [r' s3] eqn:Q. cbn [fst snd] in T3, O3.
    assert (I3 : inv s3) by apply T3. pose proof (ok_loc_tr P PC _ _ _ T3 O2) as O23.
    destruct ri as [i|].
    + destruct (nth_error (c_kvs (hp s2 l)) i) as [[k [r0|]]|] eqn:N; try discriminate.
      pose proof (kv_ptr_ok s2 l i k (Some r0) I2 O2 N) as K. apply ok_ptr_some in K.
      destruct (ReadOnly r0).
      * injection H as <- <-.
        assert (T4 : tr s3 (set_cell s3 l (w_obj (hp s3 l) (c_unesc (hp s3 l)) (set_val i (Some r') (c_kvs (hp s3 l))) (c_spare (hp s3 l))))).
        { apply tr_write; auto. apply okc_set_val; [cok|]. apply ok_ptr_some; auto. }
        split; [exact (tr_trans P PC _ _ _ T12 (tr_trans P PC _ _ _ T3 T4))|exact (ok_loc_tr P PC _ _ _ T4 O3)].
      * destruct (vt_eqb (c_dt (hp s2 r0)) t); injection H as <- <-; [split; auto|].
        pose proof (tr_Reset P PC s2 r0 t I2 K) as T5.
        split; [exact (tr_trans P PC _ _ _ T12 T5)|exact (ok_loc_tr P PC _ _ _ T5 K)].
    + injection H as <- <-.
      assert (T4 : tr s3 (set_cell s3 l (push_kv G (hp s3 l) name (Some r')))).
      { apply tr_write; auto; [|apply dt_push]. apply okc_push; [cok|]. apply ok_ptr_some; auto. }
      split; [exact (tr_trans P PC _ _ _ T12 (tr_trans P PC _ _ _ T3 T4))|exact (ok_loc_tr P PC _ _ _ T4 O3)].
Qed.

Lemma tr_SetKeyValue s l name p : inv s -> ok_loc s l -> ok_ptr s p -> tr s (SetKeyValue E G s l name p).
Proof.
  intros I O K. unfold SetKeyValue. cbv zeta.
  destruct (vt_eqb (c_dt (hp s l)) TArray && negb (x_str2int E name (-1) =? -1)).
  - apply tr_SetIndexValue; auto.
  - pose proof (tr_ensure (vt_eqb (c_dt (hp s l)) TObject) s l TObject I O) as T.
    set (s1 := if vt_eqb _ _ then s else Reset s l TObject) in *. clearbody s1.
    assert (I1 : inv s1) by apply T. pose proof (ok_loc_tr P PC _ _ _ T O) as O1.
    pose proof (tr_obj_index s1 l name I1 O1) as T2.
    destruct (obj_index E s1 l name) as [ri s2]. cbn [snd] in T2.
    assert (I2 : inv s2) by apply T2. pose proof (ok_loc_tr P PC _ _ _ T2 O1) as O2.
    pose proof (tr_trans P PC _ _ _ T T2) as T12.
    pose proof (ok_ptr_tr P PC _ _ _ T12 K) as K2.
    destruct ri as [i|]; (refine (tr_trans P PC _ _ _ T12 _); apply tr_write; auto).
    + apply okc_set_val; auto; cok.
    + apply okc_push; auto; cok.
    + apply dt_push.
Qed.

Lemma tr_InsertValue s l i t : inv s -> ok_loc s l ->
  tr s (snd (InsertValue s l i t)) /\ ok_loc (snd (InsertValue s l i t)) (fst (InsertValue s l i t)).
Proof.
  intros I O. unfold InsertValue.
  pose proof (tr_ensure (vt_eqb (c_dt (hp s l)) TArray) s l TArray I O) as T.
  set (s1 := if vt_eqb _ _ then s else Reset s l TArray) in *. clearbody s1.
  assert (I1 : inv s1) by apply T. pose proof (ok_loc_tr P PC _ _ _ T O) as O1.
  destruct (tr_NewValue P PC s1 t I1) as [T2 K]. destruct (NewValue s1 t) as [r s2]. cbn [fst snd] in *.
  assert (I2 : inv s2) by apply T2. pose proof (ok_loc_tr P PC _ _ _ T2 O1) as O2.
  pose proof (cell_ok_at P PC s2 l I2 O2) as CO.
  match goal with |- tr s (set_cell s2 l (w_arr (hp s2 l) ?a)) /\ _ => assert (T3 : tr s2 (set_cell s2 l (w_arr (hp s2 l) a))) end.
  { apply tr_write; auto. apply okc_arr; auto. intros x.
    assert (A : forall x, In (Some x) (c_arr (hp s2 l)) -> ok_loc s2 x).
    { intros y Y. apply CO. right; auto. }
    destruct (_ <? zlen _); intros X; apply in_app_or in X as [X|X].
    - apply A. rewrite <- (firstn_skipn (Z.to_nat (if i <? 0 then 0 else i))). apply in_or_app; auto.
    - destruct X as [X|X]; [injection X as <-; auto|].
      apply A. rewrite <- (firstn_skipn (Z.to_nat (if i <? 0 then 0 else i))). apply in_or_app; auto.
    - auto.
    - destruct X as [X|[]]; injection X as <-; auto. }
  split; [exact (tr_trans P PC _ _ _ T (tr_trans P PC _ _ _ T2 T3))|exact (ok_loc_tr P PC _ _ _ T3 K)].
Qed.

Lemma tr_RemoveIndex s l i : inv s -> ok_loc s l -> tr s (RemoveIndex s l i).
Proof.
  intros I O. unfold RemoveIndex. destruct (_ && _); [|apply tr_refl; auto].
  apply tr_write; auto. apply okc_arr; [cok|]. intros x X. apply In_remove_at in X.
  eapply child_ok; eauto. right; auto.
Qed.

Lemma tr_ExtractValue s l name : inv s -> ok_loc s l ->
  tr s (snd (ExtractValue E s l name)) /\ ok_ptr (snd (ExtractValue E s l name)) (fst (ExtractValue E s l name)).
Proof.
  intros I O. unfold ExtractValue. pose proof (tr_refl P PC s I) as R.
  destruct (c_dt (hp s l)); cbn [fst snd]; try (split; [exact R|apply ok_ptr_none]).
  pose proof (tr_obj_index s l name I O) as T. destruct (obj_index E s l name) as [[i|] s1]; cbn [fst snd] in *;
    [|split; [auto|apply ok_ptr_none]].
  assert (I1 : inv s1) by apply T. pose proof (ok_loc_tr P PC _ _ _ T O) as O1.
  assert (T2 : tr s1 (set_cell s1 l (remove_kv (hp s1 l) i))).
  { apply tr_write; auto. apply okc_remove. cok. }
  split; [exact (tr_trans P PC _ _ _ T T2)|]. apply (ok_ptr_tr P PC _ _ _ T2).
  destruct (nth_error (c_kvs (hp s1 l)) i) as [[k p]|] eqn:Q; [|apply ok_ptr_none].
  eapply kv_ptr_ok; eauto.
Qed.

Lemma tr_RemoveKey s l name : inv s -> ok_loc s l -> tr s (RemoveKey E s l name).
Proof.
  intros I O. unfold RemoveKey. pose proof (tr_refl P PC s I) as R.
  destruct (c_dt (hp s l)); auto.
  pose proof (tr_obj_index s l name I O) as T. destruct (obj_index E s l name) as [[i|] s1]; cbn [fst snd] in *; auto.
  assert (I1 : inv s1) by apply T. pose proof (ok_loc_tr P PC _ _ _ T O) as O1.
  refine (tr_trans P PC _ _ _ T _). apply tr_write; auto. apply okc_remove. cok.
Qed.

Lemma tr_Items s l i : inv s -> ok_loc s l ->
  tr s (snd (Items E s l i)) /\ ok_ptr (snd (Items E s l i)) (snd (fst (Items E s l i))).
Proof.
  intros I O. unfold Items. pose proof (tr_refl P PC s I) as R.
  destruct (c_dt (hp s l)); cbn [fst snd]; try (split; [exact R|apply ok_ptr_none]).
  - destruct (_ && _); cbn [fst snd]; [|split; [exact R|apply ok_ptr_none]].
    assert (T : tr s (set_cell s l (w_obj (hp s l) true (unescape_keys E (c_unesc (hp s l)) (c_kvs (hp s l))) (c_spare (hp s l))))).
    { apply tr_write; auto. apply okc_obj_sub; [cok|]. rewrite snd_unescape_keys. auto. }
    split; auto. apply (ok_ptr_tr P PC _ _ _ T).
    intros x Q. destruct (nth_in_or_default (Z.to_nat i) (unescape_keys E (c_unesc (hp s l)) (c_kvs (hp s l))) oob_kv) as [H|H].
    + eapply child_ok; eauto. left.
      rewrite <- (snd_unescape_keys E (c_unesc (hp s l))). apply (in_map snd) in H. rewrite Q in H. exact H.
    + rewrite H in Q. exact (oob_ok s I x Q).
  - destruct (_ && _); cbn [fst snd]; (split; [exact R|]); [apply arr_nth_ok; auto; apply oob_ok; auto|apply ok_ptr_none].
Qed.

Lemma ValueByIndex_ok s l i : inv s -> ok_loc s l -> ok_ptr s (ValueByIndex s l i).
Proof.
  intros I O. unfold ValueByIndex. destruct (c_dt (hp s l)); try apply ok_ptr_none;
    (destruct (_ && _); [|apply ok_ptr_none]).
  - apply kv_nth_ok; auto.
  - apply arr_nth_ok; auto; apply oob_ok; auto.
Qed.

(** Typed setters. *)
Lemma tr_set_after (b : bool) s l t f : inv s -> ok_loc s l ->
  (forall s1 c, ok_cell s1 c -> ok_cell s1 (f c)) -> (forall c, c_dt (f c) = c_dt c) ->
  tr s (let s1 := if b then s else Reset s l t in set_cell s1 l (f (hp s1 l))).
Proof.
  intros I O F D. cbv zeta. pose proof (tr_ensure b s l t I O) as T.
  set (s1 := if b then s else Reset s l t) in *. clearbody s1.
  assert (I1 : inv s1) by apply T. pose proof (ok_loc_tr P PC _ _ _ T O) as O1.
  refine (tr_trans P PC _ _ _ T _). apply tr_write; auto. apply F. cok.
Qed.
Lemma tr_SetInt s l v : inv s -> ok_loc s l -> tr s (SetInt s l v).
Proof. intros I O. apply (tr_set_after _ s l TInt (fun c => w_sv c (to_u64 v))); auto. Qed.
Lemma tr_SetString s l v : inv s -> ok_loc s l -> tr s (SetString s l v).
Proof. intros I O. apply (tr_set_after _ s l TString (fun c => w_str c v)); auto. Qed.
Lemma tr_SetBool s l v : inv s -> ok_loc s l -> tr s (SetBool s l v).
Proof. intros I O. unfold SetBool. destruct (ReadOnly l); [apply tr_refl; auto|apply tr_Reset; auto]. Qed.
Lemma tr_SetDouble s l v : inv s -> ok_loc s l -> tr s (SetDouble s l v).
Proof.
  intros I O. unfold SetDouble. destruct (ReadOnly l); [apply tr_refl; auto|].
  apply (tr_set_after _ s l TDouble (fun c => w_sv c v)); auto.
Qed.
Lemma tr_SetDelphi s l v : inv s -> ok_loc s l -> tr s (SetDelphiTime s l v).
Proof. intros I O. apply (tr_set_after _ s l TDateTime (fun c => w_sv c v)); auto. Qed.
Lemma tr_SetFloat s l v : inv s -> ok_loc s l -> tr s (SetFloat s l v).
Proof.
  intros I O. unfold SetFloat. destruct (ReadOnly l); [apply tr_refl; auto|].
  apply (tr_set_after _ s l TFloat (fun c => w_sv c ((c_sv c / 2^32) * 2^32 + v))); auto.
Qed.

Lemma okc_StringOf s c : ok_cell s c -> ok_cell s (snd (StringOf E c)).
Proof. intros H. unfold StringOf. destruct (c_dt c); exact H. Qed.
(** [String] changes the type only of a raw string, which is never a shared constant. *)
Lemma tr_StringOf s l : inv s -> ok_loc s l -> tr s (set_cell s l (snd (StringOf E (hp s l)))).
Proof.
  intros I O. apply tr_set_cell; auto.
  - apply okc_StringOf. cok.
  - intros L. pose proof (i_const _ _ _ I l L) as C. unfold StringOf.
    destruct (c_dt (hp s l)) eqn:Q; auto.
    destruct l as [|[|[|[|[|]]]]]; try discriminate; lia.
Qed.

(** ** The recursive operations *)
Lemma tr_clone_all fuel :
  (forall s p c r s', inv s -> ok_ptr s p -> ok_cache s c -> clone G fuel s p c = Ok (r, s') ->
     tr s s' /\ ok_loc s' r) /\
  (forall s r src i c s', inv s -> ok_loc s r -> ok_loc s src -> ok_cache s c ->
     clone_kvs G fuel s r src i c = Ok s' -> tr s s') /\
  (forall s r src i c s', inv s -> ok_loc s r -> ok_loc s src -> ok_cache s c ->
     clone_arr G fuel s r src i c = Ok s' -> tr s s').
Proof.
  induction fuel as [|f (IC & IK & IA)].
  { repeat split; intros; discriminate. }
  split; [|split].
  - intros s p c r s' I Kp C H. cbn [clone] in H. destruct p as [l|]; [|discriminate].
    apply ok_ptr_some in Kp.
    destruct (vt_code TTrue <=? vt_code (c_dt (hp s l))).
    { injection H as <- <-. split; [apply tr_refl; auto|auto]. }
    destruct (tr_getValue P PC G s c (c_dt (hp s l)) I C) as (T & O & _).
    destruct (getValue G s c (c_dt (hp s l))) as [r0 s1]. cbn [fst snd] in T, O.
    assert (I1 : inv s1) by apply T. pose proof (ok_loc_tr P PC _ _ _ T Kp) as Kp1.
    pose proof (ok_cache_tr P PC _ _ _ T C) as C1.
    destruct (_ && _).
    { injection H as <- <-.
      assert (T2 : tr s1 (set_cell s1 r0 (w_sv (hp s1 r0) (c_sv (hp s1 l))))).
      { apply tr_write; auto. apply okc_sv. cok. }
      split; [exact (tr_trans P PC _ _ _ T T2)|exact (ok_loc_tr P PC _ _ _ T2 O)]. }
    assert (T2 : tr s1 (set_cell s1 r0 (w_str (hp s1 r0) (c_str (hp s1 l))))).
    { apply tr_write; auto. apply okc_str. cok. }
    destruct (c_dt (hp s l)) eqn:Q;
      try (injection H as <- <-; split; [exact T|exact O]);
      try (injection H as <- <-; split; [exact (tr_trans P PC _ _ _ T T2)|exact (ok_loc_tr P PC _ _ _ T2 O)]).
    + apply bind_ok in H as (s3 & H & H2). injection H2 as <- <-.
      assert (T3 : tr s1 (set_cell s1 r0 (w_obj (hp s1 r0) (c_unesc (hp s1 l)) (c_kvs (hp s1 r0)) (c_spare (hp s1 r0))))).
      { apply tr_write; auto. apply okc_obj_sub; [cok|auto]. }
      apply IK in H;
        [|apply T3|exact (ok_loc_tr P PC _ _ _ T3 O)|exact (ok_loc_tr P PC _ _ _ T3 Kp1)|exact (ok_cache_tr P PC _ _ _ T3 C1)].
      split; [exact (tr_trans P PC _ _ _ T (tr_trans P PC _ _ _ T3 H))|].
      exact (ok_loc_tr P PC _ _ _ (tr_trans P PC _ _ _ T3 H) O).
    + apply bind_ok in H as (s3 & H & H2). injection H2 as <- <-.
      apply IA in H; auto.
      split; [exact (tr_trans P PC _ _ _ T H)|exact (ok_loc_tr P PC _ _ _ H O)].
  - intros s r src i c s' I Or Os C H. cbn [clone_kvs] in H.
    destruct (nth_error (c_kvs (hp s src)) i) as [[k p]|] eqn:N; [|injection H as <-; apply tr_refl; auto].
    pose proof (kv_ptr_ok s src i k p I Os N) as Kp.
    apply bind_ok in H as ((x & s1) & H1 & H). apply IC in H1 as [T Ox]; auto.
    assert (I1 : inv s1) by apply T. pose proof (ok_loc_tr P PC _ _ _ T Or) as Or1.
    assert (T2 : tr s1 (set_cell s1 r (push_kv G (hp s1 r) k (Some x)))).
    { apply tr_write; auto; [|apply dt_push]. apply okc_push; [cok|apply ok_ptr_some; auto]. }
    pose proof (tr_trans P PC _ _ _ T T2) as T12.
    apply IK in H; [exact (tr_trans P PC _ _ _ T12 H)|apply T2|exact (ok_loc_tr P PC _ _ _ T12 Or)|
      exact (ok_loc_tr P PC _ _ _ T12 Os)|exact (ok_cache_tr P PC _ _ _ T12 C)].
  - intros s r src i c s' I Or Os C H. cbn [clone_arr] in H.
    destruct (nth_error (c_arr (hp s src)) i) as [p|] eqn:N; [|injection H as <-; apply tr_refl; auto].
    pose proof (arr_ptr_ok s src i p I Os N) as Kp.
    apply bind_ok in H as ((x & s1) & H1 & H). apply IC in H1 as [T Ox]; auto.
    assert (I1 : inv s1) by apply T. pose proof (ok_loc_tr P PC _ _ _ T Or) as Or1.
    assert (T2 : tr s1 (set_cell s1 r (w_arr (hp s1 r) (c_arr (hp s1 r) ++ [Some x])))).
    { apply tr_write; auto. apply okc_app; [cok|apply ok_ptr_some; auto]. }
    pose proof (tr_trans P PC _ _ _ T T2) as T12.
    apply IA in H; [exact (tr_trans P PC _ _ _ T12 H)|apply T2|exact (ok_loc_tr P PC _ _ _ T12 Or)|
      exact (ok_loc_tr P PC _ _ _ T12 Os)|exact (ok_cache_tr P PC _ _ _ T12 C)].
Qed.

Lemma tr_clone fuel s p c r s' : inv s -> ok_ptr s p -> ok_cache s c ->
  clone G fuel s p c = Ok (r, s') -> tr s s' /\ ok_loc s' r.
Proof. apply tr_clone_all. Qed.

Lemma tr_Clone fuel s p uc r s' : inv s -> ok_ptr s p ->
  Clone G fuel s p uc = Ok (r, s') -> tr s s' /\ ok_loc s' r.
Proof.
  intros I K H. unfold Clone in H. destruct uc as [ch|].
  - destruct (tr_getCache P PC s ch I) as [T C]. destruct (getCache s ch) as [k s1]. cbn [fst snd] in *.
    apply tr_clone in H as [T2 O]; [|apply T|exact (ok_ptr_tr P PC _ _ _ T K)|auto].
    split; auto. exact (tr_trans P PC _ _ _ T T2).
  - apply tr_clone in H; auto. apply ok_cache_none.
Qed.

Lemma tr_add_kvs fuel : forall s r src i c s', inv s -> ok_loc s r -> ok_loc s src -> ok_cache s c ->
  add_kvs G fuel s r src i c = Ok s' -> tr s s'.
Proof.
  induction fuel as [|f IH]; [discriminate|].
  intros s r src i c s' I Or Os C H. cbn [add_kvs] in H.
  destruct (nth_error (c_kvs (hp s src)) i) as [[k p]|] eqn:N; [|injection H as <-; apply tr_refl; auto].
  pose proof (kv_ptr_ok s src i k p I Os N) as Kp. cbv zeta in H.
  assert (T0 : tr s (set_cell s r (push_kv G (hp s r) k None))).
  { apply tr_write; auto; [|apply dt_push]. apply okc_push; [cok|discriminate]. }
  set (s0 := set_cell s r (push_kv G (hp s r) k None)) in *.
  apply bind_ok in H as ((x & s1) & H1 & H).
  apply tr_clone in H1 as [T Ox]; [|apply T0|exact (ok_ptr_tr P PC _ _ _ T0 Kp)|exact (ok_cache_tr P PC _ _ _ T0 C)].
  assert (I1 : inv s1) by apply T.
  pose proof (tr_trans P PC _ _ _ T0 T) as T01. pose proof (ok_loc_tr P PC _ _ _ T01 Or) as Or1.
  match type of H with add_kvs _ _ ?s2 _ _ _ _ = _ => assert (T2 : tr s1 s2) end.
  { apply tr_write; auto. apply okc_set_val; [cok|apply ok_ptr_some; auto]. }
  pose proof (tr_trans P PC _ _ _ T01 T2) as T12.
  apply IH in H; [exact (tr_trans P PC _ _ _ T12 H)|apply T2|exact (ok_loc_tr P PC _ _ _ T12 Or)|
    exact (ok_loc_tr P PC _ _ _ T12 Os)|exact (ok_cache_tr P PC _ _ _ T12 C)].
Qed.

Lemma tr_AddFrom fuel s l m c s' : inv s -> ok_loc s l -> ok_loc s m -> ok_cache s c ->
  AddFrom G fuel s l m c = Ok s' -> tr s s'.
Proof.
  intros I O M C H. unfold AddFrom in H.
  destruct (c_dt (hp s m)); try (injection H as <-; apply tr_refl; auto).
  - cbv zeta in H.
    assert (T : tr s (set_cell s l (w_obj (hp s l) (c_unesc (hp s m)) (c_kvs (hp s l)) (c_spare (hp s l))))).
    { apply tr_write; auto. apply okc_obj_sub; [cok|auto]. }
    refine (tr_trans P PC _ _ _ T _).
    apply tr_add_kvs in H; [exact H|apply T|exact (ok_loc_tr P PC _ _ _ T O)|exact (ok_loc_tr P PC _ _ _ T M)|].
    apply (ok_cache_tr P PC _ _ _ T). destruct c; auto. apply own_ok; auto.
  - apply (proj2 (proj2 (tr_clone_all fuel))) in H; auto. apply own_ok; auto.
Qed.

Lemma tr_CopyFrom fuel s l m c s' : inv s -> ok_loc s l -> ok_loc s m -> ok_cache s c ->
  CopyFrom G fuel s l m c = Ok s' -> tr s s'.
Proof.
  intros I O M C H. unfold CopyFrom in H. cbv zeta in H.
  pose proof (tr_Reset P PC s l (c_dt (hp s m)) I O) as T.
  set (s0 := Reset s l (c_dt (hp s m))) in *. clearbody s0.
  assert (I0 : inv s0) by apply T. pose proof (ok_loc_tr P PC _ _ _ T O) as O0.
  pose proof (ok_loc_tr P PC _ _ _ T M) as M0. pose proof (ok_cache_tr P PC _ _ _ T C) as C0.
  assert (T2 : tr s0 (set_cell s0 l (w_str (hp s0 l) (c_str (hp s0 m))))).
  { apply tr_write; auto. apply okc_str. cok. }
  assert (T3 : tr s0 (set_cell s0 l (w_sv (hp s0 l) (c_sv (hp s0 m))))).
  { apply tr_write; auto. apply okc_sv. cok. }
  refine (tr_trans P PC _ _ _ T _).
  destruct (c_dt (hp s m));
    try (apply tr_AddFrom in H; auto; fail);
    try (injection H as <-; exact T2);
    (destruct (_ && _); injection H as <-; [exact T3|apply tr_refl; auto]).
Qed.

Lemma tr_Equal_all fuel :
  (forall s p q b s', inv s -> ok_ptr s p -> ok_ptr s q -> Equal E fuel s p q = Ok (b, s') -> tr s s') /\
  (forall s l m i b s', inv s -> ok_loc s l -> ok_loc s m -> equal_kvs E fuel s l m i = Ok (b, s') -> tr s s') /\
  (forall s l m i b s', inv s -> ok_loc s l -> ok_loc s m -> equal_arr E fuel s l m i = Ok (b, s') -> tr s s').
Proof.
  induction fuel as [|f (IC & IK & IA)].
  { repeat split; intros; discriminate. }
  split; [|split].
  - intros s p q b s' I Kp Kq H. cbn [Equal] in H. pose proof (tr_refl P PC s I) as R.
    destruct p as [l|], q as [m|]; try (injection H as <- <-; exact R).
    apply ok_ptr_some in Kp. apply ok_ptr_some in Kq.
    destruct (negb (vt_eqb (c_dt (hp s l)) (c_dt (hp s m)))).
    + destruct (_ || _).
      * pose proof (tr_StringOf s l I Kp) as T1.
        destruct (StringOf E (hp s l)) as [x a']. cbn [snd] in T1. cbv zeta in H.
        set (s1 := set_cell s l a') in *.
        assert (I1 : inv s1) by apply T1.
        pose proof (tr_StringOf s1 m I1 (ok_loc_tr P PC _ _ _ T1 Kq)) as T2.
        destruct (StringOf E (hp s1 m)) as [y b']. cbn [snd] in T2.
        apply ok_pair in H as [_ <-]. exact (tr_trans P PC _ _ _ T1 T2).
      * destruct (_ && _); apply ok_pair in H as [_ <-]; exact R.
    + destruct (c_dt (hp s l)); try (apply ok_pair in H as [_ <-]; exact R).
      * destruct (negb _); [apply ok_pair in H as [_ <-]; exact R|]. cbv zeta in H.
        assert (U : forall s l, inv s -> ok_loc s l -> tr s (set_cell s l (unescape_cell E (hp s l)))).
        { intros s0 l0 I0 O0. apply tr_write; auto. apply okc_obj_sub; [cok|].
          rewrite snd_unescape_keys. auto. }
        pose proof (U s l I Kp) as T1. set (s1 := set_cell s l _) in *.
        assert (I1 : inv s1) by apply T1. pose proof (ok_loc_tr P PC _ _ _ T1 Kp) as Kp1.
        pose proof (ok_loc_tr P PC _ _ _ T1 Kq) as Kq1.
        pose proof (U s1 m I1 Kq1) as T2. set (s2 := set_cell s1 m _) in *.
        apply IK in H; [|apply T2|exact (ok_loc_tr P PC _ _ _ T2 Kp1)|exact (ok_loc_tr P PC _ _ _ T2 Kq1)].
        exact (tr_trans P PC _ _ _ T1 (tr_trans P PC _ _ _ T2 H)).
      * apply IA in H; auto.
  - intros s l m i b s' I Ol Om H. cbn [equal_kvs] in H. pose proof (tr_refl P PC s I) as R.
    destruct (nth_error (c_kvs (hp s l)) i) as [[k p]|] eqn:N1; [|apply ok_pair in H as [_ <-]; exact R].
    destruct (nth_error (c_kvs (hp s m)) i) as [[k' q]|] eqn:N2; [|discriminate].
    destruct (negb _); [apply ok_pair in H as [_ <-]; exact R|].
    apply bind_ok in H as ((r & s1) & H1 & H).
    apply IC in H1; [|exact I|exact (kv_ptr_ok s l i k p I Ol N1)|exact (kv_ptr_ok s m i k' q I Om N2)].
    destruct r; [|apply ok_pair in H as [_ <-]; auto].
    apply IK in H; [exact (tr_trans P PC _ _ _ H1 H)|apply H1|exact (ok_loc_tr P PC _ _ _ H1 Ol)|exact (ok_loc_tr P PC _ _ _ H1 Om)].
  - intros s l m i b s' I Ol Om H. cbn [equal_arr] in H. pose proof (tr_refl P PC s I) as R.
    destruct (nth_error (c_arr (hp s l)) i) as [p|] eqn:N1; [|apply ok_pair in H as [_ <-]; exact R].
    destruct (nth_error (c_arr (hp s m)) i) as [q|] eqn:N2; [|discriminate].
    apply bind_ok in H as ((r & s1) & H1 & H).
    apply IC in H1; [|exact I|exact (arr_ptr_ok s l i p I Ol N1)|exact (arr_ptr_ok s m i q I Om N2)].
    destruct r; [|apply ok_pair in H as [_ <-]; auto].
    apply IA in H; [exact (tr_trans P PC _ _ _ H1 H)|apply H1|exact (ok_loc_tr P PC _ _ _ H1 Ol)|exact (ok_loc_tr P PC _ _ _ H1 Om)].
Qed.
Lemma tr_Equal fuel s p q b s' : inv s -> ok_ptr s p -> ok_ptr s q -> Equal E fuel s p q = Ok (b, s') -> tr s s'.
Proof. apply tr_Equal_all. Qed.

Lemma tr_unescape s l : inv s -> ok_loc s l -> tr s (set_cell s l (unescape_cell E (hp s l))).
Proof.
  intros I O. apply tr_write; auto. apply okc_obj_sub; [cok|]. rewrite snd_unescape_keys. auto.
Qed.
Lemma tr_json_all style escDate fmt fuel :
  (forall s level p dst d s', inv s -> ok_ptr s p -> h_json E style escDate fmt fuel s level p dst = Ok (d, s') -> tr s s') /\
  (forall s level l i dst d s', inv s -> ok_loc s l -> json_kvs E style escDate fmt fuel s level l i dst = Ok (d, s') -> tr s s') /\
  (forall s level l i dst d s', inv s -> ok_loc s l -> json_arr E style escDate fmt fuel s level l i dst = Ok (d, s') -> tr s s').
Proof.
  induction fuel as [|f (IC & IK & IA)].
  { repeat split; intros; discriminate. }
  split; [|split].
  - intros s level p dst d s' I Kp H. cbn [h_json] in H. destruct p as [l|]; [|discriminate]. apply ok_ptr_some in Kp.
    destruct (c_dt (hp s l)); apply bind_ok in H as (x & H1 & H);
      try (apply ok_pair in H as [_ <-]; apply tr_refl; auto; fail);
      destruct x as [d1 s1]; apply ok_pair in H as [_ <-]; [eapply IK|eapply IA]; eauto.
  - intros s level l i dst d s' I Ol H. cbn [json_kvs] in H. pose proof (tr_refl P PC s I) as R.
    destruct (nth_error (c_kvs (hp s l)) i) as [kp|] eqn:N1; [|apply ok_pair in H as [_ <-]; exact R].
    cbv zeta in H.
    match type of H with context [nth_error (c_kvs (hp ?s0 l)) i] => assert (T0 : tr s s0); [|set (s0' := s0) in *] end.
    { destruct style; [destruct (c_unesc (hp s l)); [exact R|apply tr_unescape; auto]|exact R|exact R]. }
    clearbody s0'. destruct (nth_error (c_kvs (hp s0' l)) i) as [[k p]|] eqn:N2; [|discriminate].
    apply bind_ok in H as ((d1 & s1) & H1 & H). pose proof (ok_loc_tr P PC _ _ _ T0 Ol) as O0.
    apply IC in H1; [|apply T0|exact (kv_ptr_ok s0' l i k p (proj1 T0) O0 N2)].
    apply IK in H; [|apply H1|exact (ok_loc_tr P PC _ _ _ H1 O0)].
    exact (tr_trans P PC _ _ _ T0 (tr_trans P PC _ _ _ H1 H)).
  - intros s level l i dst d s' I Ol H. cbn [json_arr] in H. pose proof (tr_refl P PC s I) as R.
    destruct (nth_error (c_arr (hp s l)) i) as [p|] eqn:N1; [|apply ok_pair in H as [_ <-]; exact R].
    cbv zeta in H. apply bind_ok in H as ((d1 & s1) & H1 & H).
    assert (T1 : tr s s1).
    { destruct p as [m|]; [|apply ok_pair in H1 as [_ <-]; exact R].
      eapply IC; [exact I| |exact H1]. exact (arr_ptr_ok s l i (Some m) I Ol N1). }
    apply IA in H; [exact (tr_trans P PC _ _ _ T1 H)|apply T1|exact (ok_loc_tr P PC _ _ _ T1 Ol)].
Qed.
Lemma tr_json style escDate fmt fuel s level p dst d s' : inv s -> ok_ptr s p ->
  h_json E style escDate fmt fuel s level p dst = Ok (d, s') -> tr s s'.
Proof. apply tr_json_all. Qed.
Lemma tr_bson_all fuel :
  (forall s l dst d s', inv s -> ok_loc s l -> h_ToBson E fuel s l dst = Ok (d, s') -> tr s s') /\
  (forall s l i dst d s', inv s -> ok_loc s l -> bson_kvs E fuel s l i dst = Ok (d, s') -> tr s s') /\
  (forall s l i dst d s', inv s -> ok_loc s l -> bson_arr E fuel s l i dst = Ok (d, s') -> tr s s').
Proof.
  induction fuel as [|f (IC & IK & IA)].
  { repeat split; intros; discriminate. }
  split; [|split].
  - intros s l dst d s' I Kp H. cbn [h_ToBson] in H.
    assert (TS : forall str c, StringOf E (hp s l) = (str, c) -> tr s (set_cell s l c)).
    { intros str c Q. pose proof (tr_StringOf s l I Kp) as T. rewrite Q in T. exact T. }
    destruct (c_dt (hp s l));
      try (destruct (StringOf E (hp s l)) as [str c]; apply ok_pair in H as [_ <-]; eapply TS; reflexivity);
      apply bind_ok in H as (x & H1 & H);
      try (apply ok_pair in H as [_ <-]; apply tr_refl; auto; fail);
      destruct x as [d1 s1]; cbv zeta in H; apply ok_pair in H as [_ <-].
    + pose proof (tr_unescape s l I Kp) as T. apply IK in H1; [|apply T|exact (ok_loc_tr P PC _ _ _ T Kp)].
      exact (tr_trans P PC _ _ _ T H1).
    + eapply IA; eauto.
  - intros s l i dst d s' I Ol H. cbn [bson_kvs] in H. pose proof (tr_refl P PC s I) as R.
    destruct (nth_error (c_kvs (hp s l)) i) as [[k p]|] eqn:N1; [|apply ok_pair in H as [_ <-]; exact R].
    cbv zeta in H. apply bind_ok in H as ((d1 & s1) & H1 & H).
    assert (T1 : tr s s1).
    { destruct p as [m|]; [|apply ok_pair in H1 as [_ <-]; exact R].
      eapply IC; [exact I| |exact H1]. apply ok_ptr_some. exact (kv_ptr_ok s l i k (Some m) I Ol N1). }
    apply IK in H; [exact (tr_trans P PC _ _ _ T1 H)|apply T1|exact (ok_loc_tr P PC _ _ _ T1 Ol)].
  - intros s l i dst d s' I Ol H. cbn [bson_arr] in H. pose proof (tr_refl P PC s I) as R.
    destruct (nth_error (c_arr (hp s l)) i) as [p|] eqn:N1; [|apply ok_pair in H as [_ <-]; exact R].
    cbv zeta in H. apply bind_ok in H as ((d1 & s1) & H1 & H).
    assert (T1 : tr s s1).
    { destruct p as [m|]; [|apply ok_pair in H1 as [_ <-]; exact R].
      eapply IC; [exact I| |exact H1]. apply ok_ptr_some. exact (arr_ptr_ok s l i (Some m) I Ol N1). }
    apply IA in H; [exact (tr_trans P PC _ _ _ T1 H)|apply T1|exact (ok_loc_tr P PC _ _ _ T1 Ol)].
Qed.
Lemma tr_bson fuel s p dst d s' : inv s -> ok_ptr s p -> h_Value2Bson E fuel s p dst = Ok (d, s') -> tr s s'.
Proof.
  intros I Kp H. unfold h_Value2Bson in H. destruct p as [l|]; [|discriminate]. apply ok_ptr_some in Kp.
  destruct (c_dt (hp s l)); try discriminate; apply (proj1 (tr_bson_all fuel) s l dst d s'); auto.
Qed.

Lemma tr_mergeObject fuel : forall s path op l m i fn path' s', inv s -> ok_loc s l -> ok_loc s m ->
  mergeObject E G fuel s path op l m i fn = Ok (path', s') -> tr s s'.
Proof.
  induction fuel as [|f IH]; intros s path op l m i fn path' s' I Ol Om H; [discriminate|].
  cbn [mergeObject] in H.
  destruct (nth_error (c_kvs (hp s m)) i) as [[k p0]|] eqn:N; [|apply ok_pair in H as [_ <-]; apply tr_refl; auto].
  pose proof (tr_obj_index s l k I Ol) as T. destruct (obj_index E s l k) as [ri s1]. cbn [snd] in T.
  assert (I1 : inv s1) by apply T. pose proof (ok_loc_tr P PC _ _ _ T Ol) as Ol1.
  pose proof (ok_loc_tr P PC _ _ _ T Om) as Om1.
  refine (tr_trans P PC _ _ _ T _). clear T N I Ol Om s p0.
  destruct ri as [idx|].
  - assert (Ko : ok_ptr s1 match nth_error (c_kvs (hp s1 l)) idx with Some (_, p) => p | None => None end).
    { destruct (nth_error (c_kvs (hp s1 l)) idx) as [[? ?]|] eqn:Q; [exact (kv_ptr_ok _ _ _ _ _ I1 Ol1 Q)|apply ok_ptr_none]. }
    assert (Kn : ok_ptr s1 match nth_error (c_kvs (hp s1 m)) i with Some (_, p) => p | None => None end).
    { destruct (nth_error (c_kvs (hp s1 m)) i) as [[? ?]|] eqn:Q; [exact (kv_ptr_ok _ _ _ _ _ I1 Om1 Q)|apply ok_ptr_none]. }
    cbv zeta in H.
    set (old := match nth_error (c_kvs (hp s1 l)) idx with Some (_, p) => p | None => None end) in *.
    set (new := match nth_error (c_kvs (hp s1 m)) i with Some (_, p) => p | None => None end) in *.
    clearbody old new.
    match type of H with (let '(_, _) := ?x in _) = _ => destruct x as [path1 op1] end.
    destruct op1.
    + apply IH in H; auto.
    + destruct old as [o|]; [|discriminate].
      apply ok_ptr_some in Ko. pose proof (tr_Reset P PC s1 o TNull I1 Ko) as T.
      set (s2 := Reset s1 o TNull) in *. clearbody s2.
      apply bind_ok in H as ((x & s3) & H1 & H).
      apply tr_clone in H1 as [T3 Ox]; [|apply T|exact (ok_ptr_tr P PC _ _ _ T Kn)|apply ok_cache_none].
      pose proof (tr_trans P PC _ _ _ T T3) as T13.
      assert (I3 : inv s3) by apply T3. pose proof (ok_loc_tr P PC _ _ _ T13 Ol1) as Ol3.
      assert (T4 : tr s3 (set_cell s3 l (w_obj (hp s3 l) (c_unesc (hp s3 l)) (set_val idx (Some x) (c_kvs (hp s3 l))) (c_spare (hp s3 l))))).
      { apply tr_write; auto. apply okc_set_val; [cok|apply ok_ptr_some; auto]. }
      pose proof (tr_trans P PC _ _ _ T13 T4) as T14.
      apply IH in H; [exact (tr_trans P PC _ _ _ T14 H)|apply T4|exact (ok_loc_tr P PC _ _ _ T14 Ol1)|exact (ok_loc_tr P PC _ _ _ T14 Om1)].
    + destruct old as [o|]; [|discriminate]. pose proof Ko as Kop. apply ok_ptr_some in Ko.
      destruct (_ <=? _).
      * destruct new as [n|]; [|discriminate]. apply ok_ptr_some in Kn. apply IH in H; auto.
      * apply bind_ok in H as ((oc & s2) & H1 & H).
        apply tr_clone in H1 as [T2 Ooc]; [|auto|auto|apply ok_cache_none].
        pose proof (tr_Reset P PC s2 o TArray (tr_inv _ _ T2) (ok_loc_tr P PC _ _ _ T2 Ko)) as T3.
        set (s3 := Reset s2 o TArray) in *. clearbody s3.
        pose proof (tr_trans P PC _ _ _ T2 T3) as T13.
        assert (T4 : tr s3 (SetIndexValue s3 o 0 (Some oc))).
        { apply tr_SetIndexValue; [apply T3|exact (ok_loc_tr P PC _ _ _ T13 Ko)|].
          apply ok_ptr_some. exact (ok_loc_tr P PC _ _ _ T3 Ooc). }
        set (s4 := SetIndexValue s3 o 0 (Some oc)) in *. clearbody s4.
        pose proof (tr_trans P PC _ _ _ T13 T4) as T14.
        apply bind_ok in H as ((ncl & s5) & H1 & H).
        apply tr_clone in H1 as [T5 On]; [|apply T4|exact (ok_ptr_tr P PC _ _ _ T14 Kn)|apply ok_cache_none].
        pose proof (tr_trans P PC _ _ _ T14 T5) as T15.
        assert (T6 : tr s5 (SetIndexValue s5 o 1 (Some ncl))).
        { apply tr_SetIndexValue; [apply T5|exact (ok_loc_tr P PC _ _ _ T15 Ko)|].
          apply ok_ptr_some. exact On. }
        pose proof (tr_trans P PC _ _ _ T15 T6) as T16.
        apply IH in H; [exact (tr_trans P PC _ _ _ T16 H)|apply T6|exact (ok_loc_tr P PC _ _ _ T16 Ol1)|exact (ok_loc_tr P PC _ _ _ T16 Om1)].
  - destruct (nth_error (c_kvs (hp s1 m)) i) as [[k' p]|] eqn:N; [|discriminate].
    pose proof (kv_ptr_ok s1 m i k' p I1 Om1 N) as Kp.
    apply bind_ok in H as ((x & s2) & H1 & H).
    apply tr_clone in H1 as [T2 Ox]; [|auto|auto|apply ok_cache_none].
    assert (T3 : tr s2 (SetKeyValue E G s2 l k' (Some x))).
    { apply tr_SetKeyValue; [apply T2|exact (ok_loc_tr P PC _ _ _ T2 Ol1)|apply ok_ptr_some; auto]. }
    pose proof (tr_trans P PC _ _ _ T2 T3) as T13.
    apply IH in H; [exact (tr_trans P PC _ _ _ T13 H)|apply T3|exact (ok_loc_tr P PC _ _ _ T13 Ol1)|exact (ok_loc_tr P PC _ _ _ T13 Om1)].
Qed.

Lemma tr_any_equal fuel : forall s p l j b s', inv s -> ok_ptr s p -> ok_loc s l ->
  any_equal E fuel s p l j = Ok (b, s') -> tr s s'.
Proof.
  induction fuel as [|f IH]; intros s p l j b s' I Kp Ol H; [discriminate|].
  cbn [any_equal] in H.
  destruct (nth_error (c_arr (hp s l)) j) as [q|] eqn:N; [|apply ok_pair in H as [_ <-]; apply tr_refl; auto].
  apply bind_ok in H as ((r & s1) & H1 & H).
  apply tr_Equal in H1; [|auto|auto|eapply arr_ptr_ok; eauto].
  destruct r; [apply ok_pair in H as [_ <-]; auto|].
  apply IH in H; [exact (tr_trans P PC _ _ _ H1 H)|apply H1|exact (ok_ptr_tr P PC _ _ _ H1 Kp)|exact (ok_loc_tr P PC _ _ _ H1 Ol)].
Qed.
Lemma tr_merge_arr fuel : forall s l m i add add' s', inv s -> ok_loc s l -> ok_loc s m ->
  (forall x, In (Some x) add -> ok_loc s x) ->
  merge_arr E G fuel s l m i add = Ok (add', s') -> tr s s' /\ (forall x, In (Some x) add' -> ok_loc s' x).
Proof.
  induction fuel as [|f IH]; intros s l m i add add' s' I Ol Om A H; [discriminate|].
  cbn [merge_arr] in H.
  destruct (nth_error (c_arr (hp s m)) i) as [p|] eqn:N; [|injection H as <- <-; split; auto; apply tr_refl; auto].
  pose proof (arr_ptr_ok s m i p I Om N) as Kp.
  apply bind_ok in H as ((r & s1) & H1 & H).
  apply tr_any_equal in H1; auto.
  destruct r.
  - apply IH in H as [T A2]; [split; auto; exact (tr_trans P PC _ _ _ H1 T)|apply H1|exact (ok_loc_tr P PC _ _ _ H1 Ol)|exact (ok_loc_tr P PC _ _ _ H1 Om)|].
    intros x X. exact (ok_loc_tr P PC _ _ _ H1 (A x X)).
  - apply bind_ok in H as ((x & s2) & H2 & H).
    apply tr_clone in H2 as [T2 Ox]; [|apply H1|exact (ok_ptr_tr P PC _ _ _ H1 Kp)|apply ok_cache_none].
    pose proof (tr_trans P PC _ _ _ H1 T2) as T12.
    apply IH in H as [T A2]; [split; auto; exact (tr_trans P PC _ _ _ T12 T)|apply T2|exact (ok_loc_tr P PC _ _ _ T12 Ol)|exact (ok_loc_tr P PC _ _ _ T12 Om)|].
    intros y Y. apply in_app_or in Y as [Y|[Y|[]]]; [exact (ok_loc_tr P PC _ _ _ T12 (A y Y))|injection Y as <-; auto].
Qed.

Lemma tr_MergeWith fuel s p q fn s' : inv s -> ok_ptr s p -> ok_ptr s q ->
  MergeWith E G fuel s p q fn = Ok s' -> tr s s'.
Proof.
  intros I Kp Kq H. unfold MergeWith in H. pose proof (tr_refl P PC s I) as R.
  destruct q as [m|], p as [l|]; try (injection H as <-; exact R).
  apply ok_ptr_some in Kp. apply ok_ptr_some in Kq.
  destruct (_ || _); [injection H as <-; exact R|].
  destruct (vt_eqb _ _).
  - apply bind_ok in H as ((pa & s1) & H1 & H). injection H as <-.
    apply tr_mergeObject in H1; auto.
  - apply bind_ok in H as ((add & s1) & H1 & H).
    apply tr_merge_arr in H1 as [T A]; auto.
    destruct add as [|a0 add]; [injection H as <-; exact T|].
    assert (Q : s' = set_cell s1 l (w_arr (hp s1 l) (c_arr (hp s1 l) ++ a0 :: add))) by (injection H as <-; reflexivity).
    rewrite Q. refine (tr_trans P PC _ _ _ T _).
    assert (I1 : inv s1) by apply T. pose proof (ok_loc_tr P PC _ _ _ T Kp) as O1.
    apply tr_write; auto. apply okc_arr; [cok|]. intros x X.
    apply in_app_or in X as [X|X]; [|auto]. eapply child_ok; eauto. right; auto.
    intros x X. destruct X.
Qed.

Lemma tr_SetKey s l name t r s' : inv s -> ok_loc s l ->
  SetKey E G s l name t = Ok (r, s') -> tr s s' /\ ok_loc s' r.
Proof. intros I O H. eapply tr_SetKeyCached; eauto. apply own_ok; auto. Qed.

Lemma tr_force_loop : forall paths s cur ll la prev r s', inv s -> ok_ptr s cur -> ok_ptr s ll -> ok_ptr s la ->
  force_loop E G s cur ll la prev paths = Ok (r, s') -> tr s s' /\ ok_ptr s' r.
Proof.
  intros paths; induction paths as [|key [|k2 rest] IH]; intros s cur ll la prev r s' I Kc Kl Ka H.
  - injection H as <- <-. split; auto. apply tr_refl; auto.
  - injection H as <- <-. split; auto. apply tr_refl; auto.
  - change (force_loop E G s cur ll la prev (key :: k2 :: rest)) with
      (let llast' := match la with Some _ => la | None => ll end in
      match cur with
      | None => Panic
      | Some lv =>
          let (cv, s1) := ValueByName E s lv key in
          let low := match cv with Some x => vt_code (c_dt (hp s1 x)) <=? vt_code TArray | None => false end in
          if low then force_loop E G s1 cv llast' cur key (k2 :: rest)
          else
            match c_dt (hp s1 lv) with
            | TArray =>
                let idx := x_str2int E key (-1) in
                if idx <? 0 then
                  let s2 := Reset s1 lv TObject in
                  do (n, s3) <- SetKey E G s2 lv key TObject;
                  force_loop E G s3 (Some n) llast' cur key (k2 :: rest)
                else
                  let (n, s3) := SetIndex G s1 lv idx TObject in
                  force_loop E G s3 (Some n) llast' cur key (k2 :: rest)
            | TObject =>
                do (n, s3) <- SetKey E G s1 lv key TObject;
                force_loop E G s3 (Some n) llast' cur key (k2 :: rest)
            | _ =>
                if ReadOnly lv then
                  match llast' with
                  | None =>
                      let (n, s2) := NewValue s1 TObject in
                      force_loop E G s2 (Some n) llast' None key (k2 :: rest)
                  | Some ll =>
                      do (lv', s2) <- SetKey E G s1 ll prev TObject;
                      do (n, s3) <- SetKey E G s2 lv' key TObject;
                      force_loop E G s3 (Some n) llast' (Some lv') key (k2 :: rest)
                  end
                else
                  let s2 := Reset s1 lv TObject in
                  do (n, s3) <- SetKey E G s2 lv key TObject;
                  force_loop E G s3 (Some n) llast' cur key (k2 :: rest)
            end
      end) in H.
    cbv zeta in H.
    assert (Kll : ok_ptr s match la with Some _ => la | None => ll end) by (destruct la; auto).
    set (llast' := match la with Some _ => la | None => ll end) in *. clearbody llast'.
    destruct cur as [lv|]; [|discriminate].
    pose proof Kc as Olv. apply ok_ptr_some in Olv.
    destruct (tr_ValueByName s lv key I Olv) as [T Kcv].
    destruct (ValueByName E s lv key) as [cv s1]. cbn [fst snd] in *.
    assert (I1 : inv s1) by apply T. pose proof (ok_loc_tr P PC _ _ _ T Olv) as Olv1.
    pose proof (ok_ptr_tr P PC _ _ _ T Kll) as Kll1. pose proof (ok_ptr_tr P PC _ _ _ T Kc) as Kc1.
    (* the common continuation *)
    assert (CONT : forall s3 n la', tr s1 s3 -> ok_ptr s3 n -> ok_ptr s3 la' ->
      force_loop E G s3 n llast' la' key (k2 :: rest) = Ok (r, s') -> tr s s' /\ ok_ptr s' r).
    { intros s3 n la' T3 Kn Kla HH. pose proof (tr_trans P PC _ _ _ T T3) as TT.
      apply IH in HH as [T4 Kr]; [split; auto; exact (tr_trans P PC _ _ _ TT T4)|apply T3|auto| |auto].
      exact (ok_ptr_tr P PC _ _ _ T3 Kll1). }
    destruct (match cv with Some x => _ | None => false end).
    { exact (CONT s1 cv (Some lv) (tr_refl P PC s1 I1) Kcv Kc1 H). }
    assert (DEF : (let s2 := Reset s1 lv TObject in
                  do (n, s3) <- SetKey E G s2 lv key TObject;
                  force_loop E G s3 (Some n) llast' (Some lv) key (k2 :: rest)) = Ok (r, s') -> tr s s' /\ ok_ptr s' r).
    { cbv zeta. intros HH. pose proof (tr_Reset P PC s1 lv TObject I1 Olv1) as T2.
      set (s2 := Reset s1 lv TObject) in *. clearbody s2.
      apply bind_ok in HH as ((n & s3) & H1 & HH).
      apply tr_SetKey in H1 as [T3 On]; [|apply T2|exact (ok_loc_tr P PC _ _ _ T2 Olv1)].
      pose proof (tr_trans P PC _ _ _ T2 T3) as T23.
      eapply CONT; [exact T23|apply ok_ptr_some; exact On|exact (ok_ptr_tr P PC _ _ _ T23 Kc1)|exact HH]. }
    assert (SCA : (if ReadOnly lv then
                  match llast' with
                  | None =>
                      let (n, s2) := NewValue s1 TObject in
                      force_loop E G s2 (Some n) llast' None key (k2 :: rest)
                  | Some ll =>
                      do (lv', s2) <- SetKey E G s1 ll prev TObject;
                      do (n, s3) <- SetKey E G s2 lv' key TObject;
                      force_loop E G s3 (Some n) llast' (Some lv') key (k2 :: rest)
                  end
                else
                  let s2 := Reset s1 lv TObject in
                  do (n, s3) <- SetKey E G s2 lv key TObject;
                  force_loop E G s3 (Some n) llast' (Some lv) key (k2 :: rest)) = Ok (r, s') -> tr s s' /\ ok_ptr s' r).
    { intros HH. destruct (ReadOnly lv); [|apply DEF; exact HH]. destruct llast' as [ll0|].
      - apply bind_ok in HH as ((lv' & s2) & H1 & HH).
        apply tr_SetKey in H1 as [T2 Olv']; [|auto|apply ok_ptr_some; auto].
        apply bind_ok in HH as ((n & s3) & H1 & HH).
        apply tr_SetKey in H1 as [T3 On]; [|apply T2|auto].
        eapply CONT; [exact (tr_trans P PC _ _ _ T2 T3)|apply ok_ptr_some; exact On| |exact HH].
        apply ok_ptr_some. exact (ok_loc_tr P PC _ _ _ T3 Olv').
      - destruct (tr_NewValue P PC s1 TObject I1) as [T2 On]. destruct (NewValue s1 TObject) as [n s2]. cbn [fst snd] in *.
        eapply CONT; [exact T2|apply ok_ptr_some; exact On|apply ok_ptr_none|exact HH]. }
    destruct (c_dt (hp s1 lv)); try (apply SCA; exact H).
    + apply bind_ok in H as ((n & s3) & H1 & H).
      apply tr_SetKey in H1 as [T3 On]; auto.
      eapply CONT; [exact T3|apply ok_ptr_some; exact On|exact (ok_ptr_tr P PC _ _ _ T3 Kc1)|exact H].
    + destruct (_ <? 0); [apply DEF; exact H|].
      destruct (tr_SetIndexCached s1 lv (x_str2int E key (-1)) TObject (c_own (hp s1 lv)) I1 Olv1 (own_ok _ _ I1 Olv1)) as [T3 On].
      unfold SetIndex in H. destruct (SetIndexCached G s1 lv (x_str2int E key (-1)) TObject (c_own (hp s1 lv))) as [n s3]. cbn [fst snd] in *.
      eapply CONT; [exact T3|apply ok_ptr_some; exact On|exact (ok_ptr_tr P PC _ _ _ T3 Kc1)|exact H].
Qed.

Lemma tr_ForcePath s l t paths r s' : inv s -> ok_loc s l ->
  ForcePath E G s l t paths = Ok (r, s') -> tr s s' /\ ok_ptr s' r.
Proof.
  intros I O H. unfold ForcePath in H. destruct paths as [|k0 rest].
  - injection H as <- <-. split; [apply tr_refl; auto|apply ok_ptr_some; auto].
  - apply bind_ok in H as ((cur & s1) & H1 & H).
    apply tr_force_loop in H1 as [T K]; [|auto|apply ok_ptr_some; auto|apply ok_ptr_none|apply ok_ptr_none].
    destruct cur as [cv|]; [|discriminate]. apply ok_ptr_some in K.
    apply bind_ok in H as ((n & s2) & H2 & H). injection H as <- <-.
    apply tr_SetKey in H2 as [T2 On]; [|apply T|auto].
    split; [exact (tr_trans P PC _ _ _ T T2)|apply ok_ptr_some; auto].
Qed.

(** ** Decoding MessagePack *)
Lemma okc_bin s c v : ok_cell s c -> ok_cell s (w_bin c v). Proof. intros H; exact H. Qed.

Lemma tr_got_set s c t (g : st -> nat -> st) :
  inv s -> ok_cache s c -> (forall s1 r, inv s1 -> ok_loc s1 r -> tr s1 (g s1 r)) ->
  forall x, (let (r, s1) := getValue G s c t in (Some r, g s1 r)) = x -> tr s (snd x) /\ ok_ptr (snd x) (fst x).
Proof.
  intros I C H x Q. destruct (tr_getValue P PC G s c t I C) as (T & O & _).
  destruct (getValue G s c t) as [r s1]. cbn [fst snd] in T, O. subst x. cbn [fst snd].
  pose proof (H s1 r (tr_inv _ _ T) O) as T2.
  split; [exact (tr_trans P PC _ _ _ T T2)|]. apply ok_ptr_some. exact (ok_loc_tr P PC _ _ _ T2 O).
Qed.
Lemma tr_place s c v : inv s -> ok_cache s c ->
  tr s (snd (place G s c v)) /\ ok_ptr (snd (place G s c v)) (fst (place G s c v)).
Proof.
  intros I C. assert (K : forall l, (l < 5)%nat -> tr s s /\ ok_ptr s (Some l)).
  { intros l L. split; [apply tr_refl; auto|]. apply ok_ptr_some. apply (const_ok P PC); auto. }
  destruct v; cbn [place fst snd];
    try (split; [apply tr_refl; auto|apply ok_ptr_none]; fail);
    try (apply K; repeat constructor; fail).
  - eapply (tr_got_set s c TString (fun s1 r => set_cell s1 r (w_str (hp s1 r) _))); auto.
    intros s1 r I1 O. apply tr_write; auto. apply okc_str. cok.
  - eapply (tr_got_set s c TInt (fun s1 r => SetInt s1 r _)); auto. intros s1 r I1 O. apply tr_SetInt; auto.
  - eapply (tr_got_set s c TFloat (fun s1 r => SetFloat s1 r _)); auto. intros s1 r I1 O. apply tr_SetFloat; auto.
  - eapply (tr_got_set s c TDouble (fun s1 r => SetDouble s1 r _)); auto. intros s1 r I1 O. apply tr_SetDouble; auto.
  - eapply (tr_got_set s c TDateTime (fun s1 r => SetDouble s1 r _)); auto. intros s1 r I1 O. apply tr_SetDouble; auto.
  - eapply (tr_got_set s c TBinary (fun s1 r => set_cell s1 r (w_bin (hp s1 r) _))); auto.
    intros s1 r I1 O. apply tr_write; auto. apply okc_bin. cok.
  - eapply (tr_got_set s c TExBinary (fun s1 r => set_cell s1 r (w_bin (hp s1 r) _))); auto.
    intros s1 r I1 O. apply tr_write; auto. apply okc_bin. cok.
Qed.
Definition out_ok (s' : st) (x : gerr + ptr * bytes) : Prop := forall p t, x = inr (p, t) -> ok_ptr s' p.
Lemma tr_hm_scalar s c code b s' x : inv s -> ok_cache s c -> hm_scalar E G s c code b = Ok (s', x) ->
  tr s s' /\ out_ok s' x.
Proof.
  intros I C H. unfold hm_scalar in H. destruct (parseScalar E code b) as [[v t]| | |]; try discriminate.
  - pose proof (tr_place s c v I C) as T. destruct (place G s c v) as [p s1]. apply ok_pair in H as [<- <-].
    split; [apply T|]. intros p0 t0 Q. injection Q as <- <-. apply T.
  - apply ok_pair in H as [<- <-]. split; [apply tr_refl; auto|intros p t Q; discriminate].
Qed.
Lemma tr_give_up s r e s' x : inv s -> ok_loc s r -> give_up s r e = Ok (s', x) -> tr s s' /\ out_ok s' x.
Proof.
  intros I O H. unfold give_up in H. apply bind_ok in H as (s1 & H1 & H). apply ok_pair in H as [<- <-].
  split; [|intros p t Q; discriminate]. eapply tr_FreeValue; eauto. apply ok_ptr_some; auto.
Qed.
Lemma ok_kids s1 c r : inv s1 -> ok_cache s1 c -> ok_loc s1 r -> ok_cache s1 (kids_cache s1 c r).
Proof. intros I C O. destruct c; [exact C|]. apply own_ok; auto. Qed.
Lemma tr_hm fuel :
  (forall s c b s' x, inv s -> ok_cache s c -> hm_value E G fuel s c b = Ok (s', x) -> tr s s' /\ out_ok s' x) /\
  (forall s r c n b s' x, inv s -> ok_loc s r -> ok_cache s c -> hm_array E G fuel s r c n b = Ok (s', x) ->
     tr s s' /\ out_ok s' x) /\
  (forall s r c n b s' x, inv s -> ok_loc s r -> ok_cache s c -> hm_map E G fuel s r c n b = Ok (s', x) ->
     tr s s' /\ out_ok s' x).
Proof.
  induction fuel as [|f (IV & IA & IM)].
  { repeat split; intros; discriminate. }
  assert (ER : forall s e s' x, inv s -> @Ok (st * (gerr + ptr * bytes)) (s, inl e) = Ok (s', x) -> tr s s' /\ out_ok s' x).
  { intros s e s' x I H. apply ok_pair in H as [<- <-]. split; [apply tr_refl; auto|intros p t Q; discriminate]. }
  assert (DN : forall s r b s' x, inv s -> ok_loc s r -> @Ok (st * (gerr + ptr * bytes)) (s, inr (Some r, b)) = Ok (s', x) ->
     tr s s' /\ out_ok s' x).
  { intros s r b s' x I O H. apply ok_pair in H as [<- <-]. split; [apply tr_refl; auto|].
    intros p t Q. injection Q as <- <-. apply ok_ptr_some; auto. }
  assert (TT : forall s s1 s' x, tr s s1 -> tr s1 s' /\ out_ok s' x -> tr s s' /\ out_ok s' x).
  { intros s s1 s' x T [A B]. split; [exact (tr_trans P PC _ _ _ T A)|exact B]. }
  split; [|split].
  - intros s c b s' x I C H. cbn [hm_value] in H. destruct b as [|code b]; [eapply ER; eauto|].
    destruct (IsStr code); [eapply tr_hm_scalar; eauto|].
    destruct (IsArray code).
    { destruct (parseArrLen code b) as [[n b1]| | |]; try discriminate; [|eapply ER; eauto].
      destruct (tr_getValue P PC G s c TArray I C) as (T & O & _). destruct (getValue G s c TArray) as [r s1].
      cbn [fst snd] in T, O. eapply TT; [exact T|]. destruct (n =? 0); [eapply DN; eauto; apply T|].
      eapply IA; eauto; [apply T|]. apply ok_kids; [apply T|exact (ok_cache_tr P PC _ _ _ T C)|auto]. }
    destruct (IsMap code); [|eapply tr_hm_scalar; eauto].
    destruct (parseMapLen code b) as [[n b1]| | |]; try discriminate; [|eapply ER; eauto].
    destruct (tr_getValue P PC G s c TObject I C) as (T & O & _). destruct (getValue G s c TObject) as [r s1].
    cbn [fst snd] in T, O.
    destruct (n =? 0); [eapply TT; [exact T|]; eapply DN; eauto; apply T|].
    destruct b1 as [|k b1]; [discriminate|]. destruct (IsStr k); [|eapply ER; eauto].
    eapply TT; [exact T|]. eapply IM; eauto; [apply T|].
    apply ok_kids; [apply T|exact (ok_cache_tr P PC _ _ _ T C)|auto].
  - intros s r c n b s' x I O C H. cbn [hm_array] in H. destruct (n <=? 0); [eapply DN; eauto|].
    apply bind_ok in H as ((s1 & y) & H1 & H). apply IV in H1 as [T1 OK]; auto.
    assert (I1 : inv s1) by apply T1. pose proof (ok_loc_tr P PC _ _ _ T1 O) as O1.
    destruct y as [e|[p b1]]; [eapply TT; [exact T1|]; eapply tr_give_up; eauto|].
    assert (T2 : tr s1 (set_cell s1 r (w_arr (hp s1 r) (c_arr (hp s1 r) ++ [p])))).
    { apply tr_write; auto. apply okc_app; [cok|eapply OK; eauto]. }
    pose proof (tr_trans P PC _ _ _ T1 T2) as T12. eapply TT; [exact T12|].
    eapply IA; [apply T2|exact (ok_loc_tr P PC _ _ _ T12 O)|exact (ok_cache_tr P PC _ _ _ T12 C)|exact H].
  - intros s r c n b s' x I O C H. cbn [hm_map] in H. destruct (n <=? 0); [eapply DN; eauto|].
    destruct b as [|code b]; [eapply tr_give_up; eauto|].
    destruct (parseStr code b) as [[k b1]| | |]; try discriminate; [|eapply tr_give_up; eauto].
    apply bind_ok in H as ((s1 & y) & H1 & H). apply IV in H1 as [T1 OK]; auto.
    assert (I1 : inv s1) by apply T1. pose proof (ok_loc_tr P PC _ _ _ T1 O) as O1.
    destruct y as [e|[p b2]]; [eapply TT; [exact T1|]; eapply tr_give_up; eauto|].
    pose proof (tr_SetKeyValue s1 r k p I1 O1 (OK p b2 eq_refl)) as T2.
    pose proof (tr_trans P PC _ _ _ T1 T2) as T12. eapply TT; [exact T12|].
    eapply IM; [apply T2|exact (ok_loc_tr P PC _ _ _ T12 O)|exact (ok_cache_tr P PC _ _ _ T12 C)|exact H].
Qed.
Lemma tr_NewMsg s uc b s' x : inv s -> h_NewValueFromMsgPack E G s uc b = Ok (s', x) ->
  tr s s' /\ forall p, x = inr p -> ok_ptr s' p.
Proof.
  intros I H. unfold h_NewValueFromMsgPack in H.
  assert (Q : forall c s0, tr s s0 -> ok_cache s0 c ->
     (do (s1, y) <- hm_value E G (mp_fuel b) s0 c b; Ok (s1, match y with inl e => inl e | inr (p, _) => inr p end)) = Ok (s', x) ->
     tr s s' /\ forall p, x = inr p -> ok_ptr s' p).
  { intros c s0 T C H0. apply bind_ok in H0 as ((s1 & y) & H1 & H0). apply ok_pair in H0 as [<- <-].
    apply (proj1 (tr_hm _)) in H1 as [T1 OK]; [|apply T|auto].
    split; [exact (tr_trans P PC _ _ _ T T1)|]. intros p Q. destruct y as [e|[p0 t]]; [discriminate|]. injection Q as <-.
    eapply OK; eauto. }
  destruct uc as [ch|].
  - destruct (tr_getCache P PC s ch I) as [T C]. destruct (getCache s ch) as [k s0]. eapply Q; eauto.
  - eapply Q; [apply tr_refl; auto|apply ok_cache_none|exact H].
Qed.
Lemma tr_put s l v : inv s -> ok_loc s l -> tr s (put s l v).
Proof.
  intros I O. destruct v; cbn [put]; try (apply tr_refl; auto; fail);
    try (apply tr_Reset; auto; fail); try (apply tr_SetDouble; auto; fail).
  - apply tr_write; auto. apply okc_str. cok.
  - apply tr_SetInt; auto.
  - apply tr_SetFloat; auto.
  - apply tr_write; auto. apply okc_bin. cok.
  - apply tr_write; auto. apply okc_bin. cok.
Qed.
Lemma tr_load_array fuel : forall s l c n b s' e, inv s -> ok_loc s l -> ok_cache s c ->
  load_array E G fuel s l c n b = Ok (s', e) -> tr s s'.
Proof.
  induction fuel as [|f IH]; intros s l c n b s' e I O C H; [discriminate|]. cbn [load_array] in H.
  destruct (n <=? 0); [apply ok_pair in H as [<- <-]; apply tr_refl; auto|].
  apply bind_ok in H as ((s1 & y) & H1 & H). apply (proj1 (tr_hm f)) in H1 as [T1 OK]; auto.
  destruct y as [e1|[p b1]]; [apply ok_pair in H as [<- <-]; exact T1|].
  assert (I1 : inv s1) by apply T1. pose proof (ok_loc_tr P PC _ _ _ T1 O) as O1.
  assert (T2 : tr s1 (set_cell s1 l (w_arr (hp s1 l) (c_arr (hp s1 l) ++ [p])))).
  { apply tr_write; auto. apply okc_app; [cok|eapply OK; eauto]. }
  pose proof (tr_trans P PC _ _ _ T1 T2) as T12. apply (tr_trans P PC _ _ _ T12).
  eapply IH; [apply T2|exact (ok_loc_tr P PC _ _ _ T12 O)|exact (ok_cache_tr P PC _ _ _ T12 C)|exact H].
Qed.
Lemma tr_load_map fuel : forall s l c n b s' e, inv s -> ok_loc s l -> ok_cache s c ->
  load_map E G fuel s l c n b = Ok (s', e) -> tr s s'.
Proof.
  induction fuel as [|f IH]; intros s l c n b s' e I O C H; [discriminate|]. cbn [load_map] in H.
  destruct (n <=? 0); [apply ok_pair in H as [<- <-]; apply tr_refl; auto|].
  destruct b as [|code b]; [apply ok_pair in H as [<- <-]; apply tr_refl; auto|].
  destruct (parseStr code b) as [[k b1]| | |]; try discriminate; [|apply ok_pair in H as [<- <-]; apply tr_refl; auto].
  apply bind_ok in H as ((s1 & y) & H1 & H). apply (proj1 (tr_hm f)) in H1 as [T1 OK]; auto.
  destruct y as [e1|[p b2]]; [apply ok_pair in H as [<- <-]; exact T1|].
  assert (I1 : inv s1) by apply T1. pose proof (ok_loc_tr P PC _ _ _ T1 O) as O1.
  pose proof (tr_SetKeyValue s1 l k p I1 O1 (OK p b2 eq_refl)) as T2.
  pose proof (tr_trans P PC _ _ _ T1 T2) as T12. apply (tr_trans P PC _ _ _ T12).
  eapply IH; [apply T2|exact (ok_loc_tr P PC _ _ _ T12 O)|exact (ok_cache_tr P PC _ _ _ T12 C)|exact H].
Qed.
Lemma tr_LoadMsg s l b s' e : inv s -> ok_loc s l -> LoadFromMsgPack E G s l b = Ok (s', e) -> tr s s'.
Proof.
  intros I O H. unfold LoadFromMsgPack in H. apply bind_ok in H as (s1 & H1 & H).
  apply (tr_Clear P PC) in H1; auto. apply (tr_trans P PC _ _ _ H1).
  assert (I1 : inv s1) by apply H1. pose proof (ok_loc_tr P PC _ _ _ H1 O) as O1. clear H1.
  assert (RF : forall y : option gerr, Ok (s1, y) = Ok (s', e) -> tr s1 s').
  { intros y Q. apply ok_pair in Q as [<- <-]. apply tr_refl; auto. }
  destruct b as [|code b]; [eapply RF; eauto|]. unfold parseMsgPack2Value in H.
  assert (SC : match parseScalar E code b with
      | Ok (v, _) => Ok (put s1 l v, None) | Err e => Ok (s1, Some e) | Panic => Panic | OutOfFuel => OutOfFuel end = Ok (s', e) -> tr s1 s').
  { intros Q. destruct (parseScalar E code b) as [[v t]| | |]; try discriminate; [|eapply RF; eauto].
    apply ok_pair in Q as [<- <-]. apply tr_put; auto. }
  destruct (IsStr code); [exact (SC H)|]. destruct (IsArray code).
  { destruct (parseArrLen code b) as [[n b1]| | |]; try discriminate; [|eapply RF; eauto].
    destruct (n =? 0); [eapply RF; eauto|].
    pose proof (tr_Reset P PC s1 l TArray I1 O1) as T. apply (tr_trans P PC _ _ _ T).
    eapply tr_load_array; [apply T|exact (ok_loc_tr P PC _ _ _ T O1)| |exact H].
    apply (ok_cache_tr P PC _ _ _ T). apply own_ok; auto. }
  destruct (IsMap code); [|exact (SC H)].
  destruct (parseMapLen code b) as [[n b1]| | |]; try discriminate; [|eapply RF; eauto].
  destruct (n =? 0); [eapply RF; eauto|]. destruct b1 as [|k b1]; [discriminate|].
  destruct (IsStr k); [|eapply RF; eauto].
  eapply tr_load_map; eauto. apply own_ok; auto.
Qed.

(** ** Decoding JSON *)
Lemma tr_jplace s c v : inv s -> ok_cache s c ->
  tr s (snd (jplace G s c v)) /\ ok_ptr (snd (jplace G s c v)) (fst (jplace G s c v)).
Proof.
  intros I C. assert (K : forall l, (l < 5)%nat -> tr s s /\ ok_ptr s (Some l)).
  { intros l L. split; [apply tr_refl; auto|]. apply ok_ptr_some. apply (const_ok P PC); auto. }
  destruct v; cbn [jplace fst snd];
    try (split; [apply tr_refl; auto|apply ok_ptr_none]; fail);
    try (apply K; repeat constructor; fail).
  - eapply (tr_got_set s c TRaw (fun s1 r => set_cell s1 r (w_str (hp s1 r) _))); auto.
    intros s1 r I1 O. apply tr_write; auto. apply okc_str. cok.
  - eapply (tr_got_set s c TInt (fun s1 r => SetInt s1 r _)); auto. intros s1 r I1 O. apply tr_SetInt; auto.
  - eapply (tr_got_set s c TFloat (fun s1 r => SetFloat s1 r _)); auto. intros s1 r I1 O. apply tr_SetFloat; auto.
  - eapply (tr_got_set s c TDateTime (fun s1 r => SetDouble s1 r _)); auto. intros s1 r I1 O. apply tr_SetDouble; auto.
Qed.
Lemma tr_append s l p : inv s -> ok_loc s l -> ok_ptr s p -> tr s (set_cell s l (w_arr (hp s l) (c_arr (hp s l) ++ [p]))).
Proof. intros I O K. apply tr_write; auto. apply okc_app; [cok|auto]. Qed.
Lemma tr_push s l k p : inv s -> ok_loc s l -> ok_ptr s p -> tr s (set_cell s l (push_kv G (hp s l) k p)).
Proof. intros I O K. apply tr_write; auto; [apply okc_push; [cok|auto]|apply dt_push]. Qed.
Lemma tr_hj fuel :
  (forall s c b s' x, inv s -> ok_cache s c -> hj_value E G fuel s c b = Ok (s', x) -> tr s s' /\ out_ok s' x) /\
  (forall s r c b s' x, inv s -> ok_loc s r -> ok_cache s c -> hj_members E G fuel s r c b = Ok (s', x) ->
     tr s s' /\ out_ok s' x) /\
  (forall s r c b s' x, inv s -> ok_loc s r -> ok_cache s c -> hj_elems E G fuel s r c b = Ok (s', x) ->
     tr s s' /\ out_ok s' x).
Proof.
  induction fuel as [|f (IV & IM & IA)].
  { repeat split; intros; discriminate. }
  assert (ER : forall s e s' x, inv s -> @Ok (st * (gerr + ptr * bytes)) (s, inl e) = Ok (s', x) -> tr s s' /\ out_ok s' x).
  { intros s e s' x I H. apply ok_pair in H as [<- <-]. split; [apply tr_refl; auto|intros p t Q; discriminate]. }
  assert (DN : forall s r b s' x, inv s -> ok_loc s r -> @Ok (st * (gerr + ptr * bytes)) (s, inr (Some r, b)) = Ok (s', x) ->
     tr s s' /\ out_ok s' x).
  { intros s r b s' x I O H. apply ok_pair in H as [<- <-]. split; [apply tr_refl; auto|].
    intros p t Q. injection Q as <- <-. apply ok_ptr_some; auto. }
  assert (TT : forall s s1 s' x, tr s s1 -> tr s1 s' /\ out_ok s' x -> tr s s' /\ out_ok s' x).
  { intros s s1 s' x T [A B]. split; [exact (tr_trans P PC _ _ _ T A)|exact B]. }
  split; [|split].
  - intros s c b s' x I C H. cbn [hj_value] in H. destruct b as [|y r]; [eapply ER; eauto|].
    destruct (y =? 123).
    { destruct (skipWB r) as [[|c1 t] sk]; [eapply ER; eauto|].
      destruct (tr_getValue P PC G s c TObject I C) as (T & O & _). destruct (getValue G s c TObject) as [l s1].
      cbn [fst snd] in T, O. eapply TT; [exact T|]. destruct (c1 =? 125); [eapply DN; eauto; apply T|].
      eapply IM; eauto; [apply T|]. apply ok_kids; [apply T|exact (ok_cache_tr P PC _ _ _ T C)|auto]. }
    destruct (y =? 91).
    { destruct (skipWB r) as [[|c1 t] sk]; [eapply ER; eauto|].
      destruct (tr_getValue P PC G s c TArray I C) as (T & O & _). destruct (getValue G s c TArray) as [l s1].
      cbn [fst snd] in T, O. eapply TT; [exact T|]. destruct (c1 =? 93); [eapply DN; eauto; apply T|].
      eapply IA; eauto; [apply T|]. apply ok_kids; [apply T|exact (ok_cache_tr P PC _ _ _ T C)|auto]. }
    destruct (js_scalar E (y :: r)) as [[v t]| | |]; try discriminate; [|eapply ER; eauto].
    pose proof (tr_jplace s c v I C) as T. destruct (jplace G s c v) as [p s1]. apply ok_pair in H as [<- <-].
    split; [apply T|]. intros p0 t0 Q. injection Q as <- <-. apply T.
  - intros s r c b s' x I O C H. cbn [hj_members] in H. destruct (skipWB b) as [[|y r1] sk]; [eapply ER; eauto|].
    destruct (negb (y =? 34)); [eapply ER; eauto|].
    destruct (parseJsonKey r1) as [[k b2]| | |]; try discriminate; [|eapply ER; eauto].
    destruct (skipWB b2) as [[|c3 r3] sk2]; [eapply ER; eauto|]. destruct (negb (c3 =? 58)); [eapply ER; eauto|].
    apply bind_ok in H as ((s1 & y1) & H1 & H). apply IV in H1 as [T1 OK]; auto.
    assert (I1 : inv s1) by apply T1. pose proof (ok_loc_tr P PC _ _ _ T1 O) as O1.
    destruct y1 as [e|[p b5]]; [eapply TT; [exact T1|]; eapply ER; eauto|]. cbv zeta in H.
    pose proof (tr_push s1 r k p I1 O1 (OK p b5 eq_refl)) as T2.
    pose proof (tr_trans P PC _ _ _ T1 T2) as T12. eapply TT; [exact T12|].
    destruct (skipWB b5) as [[|c6 r6] sk3]; [eapply ER; eauto; apply T2|].
    destruct (c6 =? 44).
    { eapply IM; [apply T2|exact (ok_loc_tr P PC _ _ _ T12 O)|exact (ok_cache_tr P PC _ _ _ T12 C)|exact H]. }
    destruct (c6 =? 125); [|eapply ER; eauto; apply T2].
    eapply DN; [apply T2|exact (ok_loc_tr P PC _ _ _ T12 O)|exact H].
  - intros s r c b s' x I O C H. cbn [hj_elems] in H.
    apply bind_ok in H as ((s1 & y1) & H1 & H). apply IV in H1 as [T1 OK]; auto.
    assert (I1 : inv s1) by apply T1. pose proof (ok_loc_tr P PC _ _ _ T1 O) as O1.
    destruct y1 as [e|[p b2]]; [eapply TT; [exact T1|]; eapply ER; eauto|]. cbv zeta in H.
    pose proof (tr_append s1 r p I1 O1 (OK p b2 eq_refl)) as T2.
    pose proof (tr_trans P PC _ _ _ T1 T2) as T12. eapply TT; [exact T12|].
    destruct (skipWB b2) as [[|c6 r6] sk3]; [eapply ER; eauto; apply T2|].
    destruct (c6 =? 44).
    { eapply IA; [apply T2|exact (ok_loc_tr P PC _ _ _ T12 O)|exact (ok_cache_tr P PC _ _ _ T12 C)|exact H]. }
    destruct (c6 =? 93); [|eapply ER; eauto; apply T2].
    eapply DN; [apply T2|exact (ok_loc_tr P PC _ _ _ T12 O)|exact H].
Qed.
Lemma tr_NewJson s uc b s' x : inv s -> h_NewValueFromJson E G s uc b = Ok (s', x) ->
  tr s s' /\ forall p, x = inr p -> ok_ptr s' p.
Proof.
  intros I H. unfold h_NewValueFromJson in H. cbv zeta in H.
  assert (Q : forall c s0, tr s s0 -> ok_cache s0 c ->
     (do (s1, y) <- hj_value E G (js_fuel (fst (skipWB b))) s0 c (fst (skipWB b));
      Ok (s1, match y with inl e => inl e | inr (p, tail) =>
        match skipWB tail with ([], _) => inr p | (_ :: _, sk) => inl (ErrJson JET_Invalidate sk tail) end end)) = Ok (s', x) ->
     tr s s' /\ forall p, x = inr p -> ok_ptr s' p).
  { intros c s0 T C H0. apply bind_ok in H0 as ((s1 & y) & H1 & H0). apply ok_pair in H0 as [<- <-].
    apply (proj1 (tr_hj _)) in H1 as [T1 OK]; [|apply T|auto].
    split; [exact (tr_trans P PC _ _ _ T T1)|]. intros p Q. destruct y as [e|[p0 t]]; [discriminate|].
    destruct (skipWB t) as [[|? ?] ?]; [|discriminate]. injection Q as <-. eapply OK; eauto. }
  destruct uc as [ch|].
  - destruct (tr_getCache P PC s ch I) as [T C]. destruct (getCache s ch) as [k s0]. eapply Q; eauto.
  - eapply Q; [apply tr_refl; auto|apply ok_cache_none|exact H].
Qed.
Lemma tr_jput s l v : inv s -> ok_loc s l -> tr s (jput s l v).
Proof.
  intros I O. destruct v; cbn [jput]; try (apply tr_refl; auto; fail); try (apply tr_Reset; auto; fail).
  - cbv zeta. pose proof (tr_Reset P PC s l TRaw I O) as T. apply (tr_trans P PC _ _ _ T).
    pose proof (ok_loc_tr P PC _ _ _ T O) as O1. assert (I1 : inv (Reset s l TRaw)) by apply T.
    apply tr_write; auto. apply okc_str. cok.
  - apply tr_SetInt; auto.
  - pose proof (tr_Reset P PC s l TDateTime I O) as T. apply (tr_trans P PC _ _ _ T).
    apply tr_SetDouble; [apply T|exact (ok_loc_tr P PC _ _ _ T O)].
Qed.
Lemma tr_hl_members fuel : forall s l b s', inv s -> ok_loc s l ->
  hl_members E G fuel s l b = Ok (s', None) -> tr s s'.
Proof.
  induction fuel as [|f IH]; intros s l b s' I O H; [discriminate|]. cbn [hl_members] in H. cbv zeta in H.
  destruct (skipWB b) as [[|y r1] sk]; [discriminate|]. destruct (negb (y =? 34)); [discriminate|].
  destruct (parseJsonKey r1) as [[k b2]| | |]; try discriminate.
  destruct (skipWB b2) as [[|c3 r3] sk2]; [discriminate|]. destruct (negb (c3 =? 58)); [discriminate|].
  apply bind_ok in H as ((s1 & y1) & H1 & H). apply (proj1 (tr_hj _)) in H1 as [T1 OK]; auto; [|apply own_ok; auto].
  assert (I1 : inv s1) by apply T1. pose proof (ok_loc_tr P PC _ _ _ T1 O) as O1.
  destruct y1 as [e|[p b5]]; [discriminate|].
  pose proof (tr_push s1 l k p I1 O1 (OK p b5 eq_refl)) as T2.
  pose proof (tr_trans P PC _ _ _ T1 T2) as T12. apply (tr_trans P PC _ _ _ T12).
  destruct (skipWB b5) as [[|c6 r6] sk3]; [discriminate|].
  destruct (c6 =? 44); [eapply IH; [apply T2|exact (ok_loc_tr P PC _ _ _ T12 O)|exact H]|].
  destruct (c6 =? 125); [|discriminate]. apply ok_pair in H as [<- _]. apply tr_refl. apply T2.
Qed.
Lemma tr_hl_elems fuel : forall s l b s' e, inv s -> ok_loc s l ->
  hl_elems E G fuel s l b = Ok (s', e) -> tr s s'.
Proof.
  induction fuel as [|f IH]; intros s l b s' e I O H; [discriminate|]. cbn [hl_elems] in H. cbv zeta in H.
  apply bind_ok in H as ((s1 & y1) & H1 & H). apply (proj1 (tr_hj _)) in H1 as [T1 OK]; auto; [|apply own_ok; auto].
  assert (I1 : inv s1) by apply T1. pose proof (ok_loc_tr P PC _ _ _ T1 O) as O1.
  destruct y1 as [e1|[p b2]]; [apply ok_pair in H as [<- _]; exact T1|].
  pose proof (tr_append s1 l p I1 O1 (OK p b2 eq_refl)) as T2.
  pose proof (tr_trans P PC _ _ _ T1 T2) as T12. apply (tr_trans P PC _ _ _ T12).
  assert (RF : forall s2 (y : option gerr), inv s2 -> Ok (s2, y) = Ok (s', e) -> tr s2 s').
  { intros s2 y I2 Q. apply ok_pair in Q as [<- _]. apply tr_refl; auto. }
  destruct (skipWB b2) as [[|c6 r6] sk3]; [eapply RF; [apply T2|exact H]|].
  destruct (c6 =? 44); [eapply IH; [apply T2|exact (ok_loc_tr P PC _ _ _ T12 O)|exact H]|].
  destruct (c6 =? 93); (eapply RF; [apply T2|exact H]).
Qed.
Lemma tr_LoadJson s l b s' : inv s -> ok_loc s l -> h_LoadFromJson E G s l b = Ok (s', None) -> tr s s'.
Proof.
  intros I O H. unfold h_LoadFromJson in H. apply bind_ok in H as (s1 & H1 & H).
  apply (tr_Clear P PC) in H1; auto. apply (tr_trans P PC _ _ _ H1).
  assert (I1 : inv s1) by apply H1. pose proof (ok_loc_tr P PC _ _ _ H1 O) as O1. clear H1.
  assert (RF : Ok (s1, @None gerr) = Ok (s', None) -> tr s1 s').
  { intros Q. injection Q as <-. apply tr_refl; auto. }
  destruct (fst (skipWB b)) as [|x r]; [exact (RF H)|]. unfold h_parseJson2Value in H.
  destruct (x =? 123).
  { destruct (skipWB r) as [[|c1 t] sk]; [discriminate|]. destruct (c1 =? 125); [exact (RF H)|]. eapply tr_hl_members; eauto. }
  destruct (x =? 91).
  { destruct (skipWB r) as [[|c1 t] sk]; [discriminate|]. destruct (c1 =? 93); [exact (RF H)|]. eapply tr_hl_elems; eauto. }
  destruct (if is_num_start x then _ else _) as [v| | |]; try discriminate. apply ok_pair in H as [<- _]. apply tr_jput; auto.
Qed.

(** ** Importing Go values *)
Definition at_loc (d : dest) : nat := match d with DRoot l | DKey l _ | DIdx l _ => l end.
Lemma tr_SetBinary s l b : inv s -> ok_loc s l -> tr s (SetBinary s l b).
Proof.
  intros I O. unfold SetBinary. destruct (c_dt (hp s l)); try (apply tr_refl; auto; fail).
  - apply tr_write; auto. apply okc_bin. cok.
  - destruct (c_bin (hp s l)) as [|x r]; [|apply tr_write; auto; apply okc_bin; cok].
    pose proof (tr_Reset P PC s l TBinary I O) as T. apply (tr_trans P PC _ _ _ T).
    pose proof (ok_loc_tr P PC _ _ _ T O) as O1. assert (I1 : inv (Reset s l TBinary)) by apply T.
    apply tr_write; auto. apply okc_bin. cok.
Qed.
Lemma tr_acquire s d t c r s' : inv s -> ok_loc s (at_loc d) -> ok_cache s c -> acquire E G s d t c = Ok (r, s') ->
  tr s s' /\ ok_loc s' r.
Proof.
  intros I O C H. destruct d as [l|l k|l i]; cbn [acquire at_loc] in *.
  - apply ok_pair in H as [<- <-]. pose proof (tr_Reset P PC s l t I O) as T. split; [exact T|exact (ok_loc_tr P PC _ _ _ T O)].
  - eapply tr_SetKeyCached; eauto.
  - destruct (tr_SetIndexCached s l i t c I O C) as [A B]. injection H as Q. destruct (SetIndexCached G s l i t c) as [r0 s0]. apply pair_equal_spec in Q as [-> ->]. auto.
Qed.
Definition imp (f : st -> dest -> res st) (c : option nat) : Prop :=
  forall s d s', inv s -> ok_loc s (at_loc d) -> ok_cache s c -> f s d = Ok s' -> tr s s'.
Lemma imp_acq t c (g : st -> nat -> st) : (forall s r, inv s -> ok_loc s r -> tr s (g s r)) ->
  imp (fun s d => do (r, s1) <- acquire E G s d t c; Ok (g s1 r)) c.
Proof.
  intros K s d s' I O C H. apply bind_ok in H as ((r & s1) & H1 & H). apply tr_acquire in H1 as [T O1]; auto.
  injection H as <-. apply (tr_trans P PC _ _ _ T). apply K; auto. apply T.
Qed.
Lemma tr_put_scalar x c : imp (fun s d => put_scalar E G s d x c) c.
Proof.
  intros s d s' I O C H.
  assert (KB : forall b : bool, ok_ptr s (Some (if b then loc_true else loc_false))).
  { intros b. apply ok_ptr_some. apply (const_ok P PC); auto. unfold loc_true, loc_false. destruct b; lia. }
  destruct d as [l|l k|l i]; cbn [at_loc] in O.
  - cbn [put_scalar] in H. injection H as <-. destruct x;
      [apply tr_SetInt|apply tr_SetInt|apply tr_SetString|apply tr_SetBool|apply tr_SetFloat|apply tr_SetDouble]; auto.
  - destruct x as [n|n|b|b|v|v]; cbn [put_scalar] in H.
    + revert H. refine (imp_acq TInt c (fun s r => SetInt s r n) _ s (DKey l k) s' I O C). intros; apply tr_SetInt; auto.
    + revert H. refine (imp_acq TInt c (fun s r => SetInt s r n) _ s (DKey l k) s' I O C). intros; apply tr_SetInt; auto.
    + revert H. refine (imp_acq TString c (fun s r => SetString s r b) _ s (DKey l k) s' I O C). intros; apply tr_SetString; auto.
    + injection H as <-. apply tr_SetKeyValue; auto.
    + revert H. refine (imp_acq TFloat c (fun s r => SetFloat s r v) _ s (DKey l k) s' I O C). intros; apply tr_SetFloat; auto.
    + revert H. refine (imp_acq TDouble c (fun s r => SetDouble s r v) _ s (DKey l k) s' I O C). intros; apply tr_SetDouble; auto.
  - destruct x as [n|n|b|b|v|v]; cbn [put_scalar] in H.
    + revert H. refine (imp_acq TInt c (fun s r => SetInt s r n) _ s (DIdx l i) s' I O C). intros; apply tr_SetInt; auto.
    + revert H. refine (imp_acq TInt c (fun s r => SetInt s r n) _ s (DIdx l i) s' I O C). intros; apply tr_SetInt; auto.
    + revert H. refine (imp_acq TString c (fun s r => SetString s r b) _ s (DIdx l i) s' I O C). intros; apply tr_SetString; auto.
    + injection H as <-. apply tr_SetIndexValue; auto.
    + revert H. refine (imp_acq TFloat c (fun s r => SetFloat s r v) _ s (DIdx l i) s' I O C). intros; apply tr_SetFloat; auto.
    + revert H. refine (imp_acq TDouble c (fun s r => SetDouble s r v) _ s (DIdx l i) s' I O C). intros; apply tr_SetDouble; auto.
Qed.
Lemma tr_put_kind fld x s l k c s' : inv s -> ok_loc s l -> ok_cache s c -> put_kind E G fld s l k x c = Ok s' -> tr s s'.
Proof.
  intros I O C H. destruct x as [n|n|b|b|v|v]; cbn [put_kind] in H;
    try (exact (tr_put_scalar _ c s (DKey l k) s' I O C H)).
  - destruct fld; [discriminate|]. exact (tr_put_scalar (SUint n) c s (DKey l k) s' I O C H).
  - revert H. refine (imp_acq TDouble c (fun s r => SetFloat s r v) _ s (DKey l k) s' I O C). intros; apply tr_SetFloat; auto.
Qed.
Lemma tr_over_keys {A} (f : st -> bytes -> A -> res st) r c kvs :
  Forall (fun kv => forall s s', inv s -> ok_loc s r -> ok_cache s c -> f s (fst kv) (snd kv) = Ok s' -> tr s s') kvs ->
  forall s s', inv s -> ok_loc s r -> ok_cache s c -> over_keys f kvs s = Ok s' -> tr s s'.
Proof.
  induction 1 as [|[k x] kvs K _ IH]; intros s s' I O C H; cbn [over_keys] in H.
  - injection H as <-. apply tr_refl; auto.
  - apply bind_ok in H as (s1 & H1 & H). apply K in H1; auto. apply (tr_trans P PC _ _ _ H1).
    eapply IH; [apply H1|exact (ok_loc_tr P PC _ _ _ H1 O)|exact (ok_cache_tr P PC _ _ _ H1 C)|exact H].
Qed.
Lemma tr_over_list {A} (f : st -> Z -> A -> res st) r c l :
  Forall (fun x => forall s i s', inv s -> ok_loc s r -> ok_cache s c -> f s i x = Ok s' -> tr s s') l ->
  forall i s s', inv s -> ok_loc s r -> ok_cache s c -> over_list f i l s = Ok s' -> tr s s'.
Proof.
  induction 1 as [|x l K _ IH]; intros i s s' I O C H; cbn [over_list] in H.
  - injection H as <-. apply tr_refl; auto.
  - apply bind_ok in H as (s1 & H1 & H). apply K in H1; auto. apply (tr_trans P PC _ _ _ H1).
    eapply IH; [apply H1|exact (ok_loc_tr P PC _ _ _ H1 O)|exact (ok_cache_tr P PC _ _ _ H1 C)|exact H].
Qed.
Lemma tr_over_fields f r c fs :
  Forall (fun x => forall s n e i s', inv s -> ok_loc s r -> ok_cache s c -> f s n e i (snd x) = Ok s' -> tr s s') fs ->
  forall s s', inv s -> ok_loc s r -> ok_cache s c -> over_fields f fs s = Ok s' -> tr s s'.
Proof.
  induction 1 as [|[[[n e] i] x] l K _ IH]; intros s s' I O C H; cbn [over_fields] in H.
  - injection H as <-. apply tr_refl; auto.
  - apply bind_ok in H as (s1 & H1 & H). apply K in H1; auto. apply (tr_trans P PC _ _ _ H1).
    eapply IH; [apply H1|exact (ok_loc_tr P PC _ _ _ H1 O)|exact (ok_cache_tr P PC _ _ _ H1 C)|exact H].
Qed.
Lemma imp_loop t c (g : st -> nat -> res st) :
  (forall s r s', inv s -> ok_loc s r -> ok_cache s c -> g s r = Ok s' -> tr s s') ->
  imp (fun s d => do (r, s1) <- acquire E G s d t c; g s1 r) c.
Proof.
  intros K s d s' I O C H. apply bind_ok in H as ((r & s1) & H1 & H). apply tr_acquire in H1 as [T O1]; auto.
  apply (tr_trans P PC _ _ _ T). eapply K; eauto; [apply T|exact (ok_cache_tr P PC _ _ _ T C)].
Qed.
Lemma tr_strs c kvs s r s' : inv s -> ok_loc s r -> ok_cache s c ->
  over_keys (fun s k x => put_scalar E G s (DKey r k) (SStr x) c) kvs s = Ok s' -> tr s s'.
Proof.
  intros I O C. apply (tr_over_keys _ r c); auto. apply Forall_forall. intros [k x] _ s0 s1 I0 O0 C0 H0.
  exact (tr_put_scalar (SStr x) c s0 (DKey r k) s1 I0 O0 C0 H0).
Qed.
Lemma tr_assign g : and_below (fun g => forall rv c, imp (fun s d => assign E G rv g s d c) c) g.
Proof.
  induction g as [|n x|t|b|kvs IH|kvs|kvs|l IH|l|fs IH|i kvs IH|i l IH|g [IH _]|b|] using goval_ind';
    (split; [intros rv c s d s' I O C H|intros g' Q; try discriminate Q]);
    try (cbn [assign] in H; injection H as <-; apply tr_refl; auto; fail).
  - destruct n; cbn [assign] in H; [injection H as <-; apply tr_refl; auto|]. eapply tr_put_scalar; eauto.
  - destruct d as [l|l k|l i]; cbn [assign] in H; [injection H as <-; apply tr_SetDouble; auto| |].
    + revert H. refine (imp_acq TDateTime c (fun s r => SetDouble s r _) _ s (DKey l k) s' I O C). intros; apply tr_SetDouble; auto.
    + revert H. refine (imp_acq TDateTime c (fun s r => SetDouble s r _) _ s (DIdx l i) s' I O C). intros; apply tr_SetDouble; auto.
  - destruct d as [l|l k|l i]; cbn [assign] in H; [injection H as <-; apply tr_SetBinary; auto| |].
    + revert H. refine (imp_acq TBinary c (fun s r => SetBinary s r _) _ s (DKey l k) s' I O C). intros; apply tr_SetBinary; auto.
    + revert H. refine (imp_acq TBinary c (fun s r => SetBinary s r _) _ s (DIdx l i) s' I O C). intros; apply tr_SetBinary; auto.
  - cbn [assign] in H. revert H.
    refine (imp_loop TObject c (fun s1 r => over_keys (fun s k x => assign E G false x s (DKey r k) c) kvs s1) _ s d s' I O C).
    intros s0 r s1. apply tr_over_keys. eapply Forall_impl; [|exact IH]. intros [k x] [K _] s2 s3 I2 O2 C2 H2.
    exact (K false c s2 (DKey r k) s3 I2 O2 C2 H2).
  - cbn [assign] in H. revert H. refine (imp_loop TObject c (fun s1 r => over_keys (fun s k x => put_scalar E G s (DKey r k) (SStr x) c) kvs s1) _ s d s' I O C).
    intros s0 r s1 I0 O0 C0. apply tr_strs; auto.
  - cbn [assign] in H. revert H. refine (imp_loop TObject c (fun s1 r => over_keys (fun s k x => put_scalar E G s (DKey r k) (SInt x) c) kvs s1) _ s d s' I O C).
    intros s0 r s1. apply tr_over_keys. apply Forall_forall. intros [k x] _ s2 s3 I2 O2 C2 H2.
    exact (tr_put_scalar (SInt x) c s2 (DKey r k) s3 I2 O2 C2 H2).
  - cbn [assign] in H. revert H. refine (imp_loop TArray c (fun s1 r => over_list (fun s i x => assign E G false x s (DIdx r i) c) 0 l s1) _ s d s' I O C).
    intros s0 r s1. apply tr_over_list. eapply Forall_impl; [|exact IH]. intros x [K _] s2 i s3 I2 O2 C2 H2.
    exact (K false c s2 (DIdx r i) s3 I2 O2 C2 H2).
  - cbn [assign] in H. revert H. refine (imp_loop TArray c (fun s1 r => over_list (fun s i x => put_scalar E G s (DIdx r i) (SStr x) c) 0 l s1) _ s d s' I O C).
    intros s0 r s1. apply tr_over_list. apply Forall_forall. intros x _ s2 i s3 I2 O2 C2 H2.
    exact (tr_put_scalar (SStr x) c s2 (DIdx r i) s3 I2 O2 C2 H2).
  - cbn [assign] in H. revert H. refine (imp_loop TObject c (fun s1 r => over_fields _ fs s1) _ s d s' I O C).
    intros s0 r s1. apply tr_over_fields. eapply Forall_impl; [|exact IH]. intros [[[n0 e0] i0] x] [K KP] s2 nm ex ifc s3 I2 O2 C2 H2.
    cbn [snd] in *. pose proof (fun H => K false c s2 (DKey r nm) s3 I2 O2 C2 H) as A.
    assert (B : (if ex then assign E G false x s2 (DKey r nm) c else Ok s2) = Ok s3 -> tr s2 s3).
    { destruct ex; [exact A|]. intros Q. injection Q as <-. apply tr_refl; auto. }
    destruct ifc; [exact (B H2)|]. destruct x; try exact (B H2).
    + eapply tr_put_kind; eauto.
    + assert (B' : (if ex then assign E G false x s2 (DKey r nm) c else Ok s2) = Ok s3 -> tr s2 s3).
      { destruct ex; [intros Q; exact (KP x eq_refl false c s2 (DKey r nm) s3 I2 O2 C2 Q)|].
        intros Q. injection Q as <-. apply tr_refl; auto. }
      destruct x; try exact (B' H2). eapply tr_put_kind; eauto.
    + discriminate.
  - destruct kvs as [|kv0 kvs]; cbn [assign] in H; [injection H as <-; apply tr_refl; auto|].
    set (all := kv0 :: kvs) in *. clearbody all. revert H. refine (imp_loop TObject c (fun s1 r => over_keys _ all s1) _ s d s' I O C).
    intros s0 r s1. apply tr_over_keys. eapply Forall_impl; [|exact IH]. intros [nm x] [K KP] s2 s3 I2 O2 C2 H2.
    cbn [fst snd] in *. pose proof (fun H => K false c s2 (DKey r nm) s3 I2 O2 C2 H) as B.
    destruct i; [exact (B H2)|]. destruct x; try exact (B H2).
    + eapply tr_put_kind; eauto.
    + pose proof (fun Q => KP x eq_refl false c s2 (DKey r nm) s3 I2 O2 C2 Q) as B'.
      destruct x; try exact (B' H2). eapply tr_put_kind; eauto.
    + discriminate.
  - cbn [assign] in H. revert H. refine (imp_loop TArray c (fun s1 r => over_list (fun s j x => assign E G (negb i) x s (DIdx r j) c) 0 l s1) _ s d s' I O C).
    intros s0 r s1. apply tr_over_list. eapply Forall_impl; [|exact IH]. intros x [K _] s2 j s3 I2 O2 C2 H2.
    exact (K (negb i) c s2 (DIdx r j) s3 I2 O2 C2 H2).
  - cbn [assign] in H. destruct rv; [exact (IH true c s d s' I O C H)|].
    destruct (ptr_ignored g); [injection H as <-; apply tr_refl; auto|].
    pose proof (fun Q => IH false c s d s' I O C Q) as B.
    destruct g; try exact (B H). destruct d as [l|l k|l j]; [exact (B H)| |].
    + apply bind_ok in H as ((r & s1) & H1 & H). apply tr_acquire in H1 as [T O1]; auto; [|apply own_ok; auto].
      apply (tr_trans P PC _ _ _ T). eapply tr_strs; eauto; [apply T|exact (ok_cache_tr P PC _ _ _ T C)].
    + apply bind_ok in H as ((r & s1) & H1 & H). apply tr_acquire in H1 as [T O1]; auto; [|apply own_ok; auto].
      apply (tr_trans P PC _ _ _ T). eapply tr_strs; eauto; [apply T|exact (ok_cache_tr P PC _ _ _ T C)].
  - injection Q as <-. exact IH.
  - cbn [assign] in H. destruct rv.
    + apply bind_ok in H as ((r & s1) & H1 & H). apply tr_acquire in H1 as [T _]; auto. injection H as <-. exact T.
    + destruct b; [discriminate|]. destruct d; try discriminate; injection H as <-; apply tr_refl; auto.
Qed.
Lemma tr_SetValue s l g s' : inv s -> ok_loc s l -> SetValue E G s l g = Ok s' -> tr s s'.
Proof.
  intros I O H. unfold SetValue in H. destruct (ReadOnly l); [injection H as <-; apply tr_refl; auto|].
  exact (proj1 (tr_assign g) false _ s (DRoot l) s' I O (own_ok s l I O) H).
Qed.

(** ** BSON.  The cells a decoder fills: writable, and closed under the children they have. *)
Definition shut (D : nat_set) (s : st) : Prop :=
  forall z, D z -> ok_loc s z /\ (5 <= z)%nat /\ forall y, sees (hp s z) y -> D y.
Definition spreads (D : nat_set) (s : st) (D' : nat_set) (s' : st) : Prop :=
  tr s s' /\ (forall z, D z -> D' z) /\ shut D' s'.
Lemma spreads_refl D s : inv s -> shut D s -> spreads D s D s.
Proof. intros I H. split; [apply tr_refl; auto|split; auto]. Qed.
Lemma spreads_trans D s D1 s1 D2 s2 : spreads D s D1 s1 -> spreads D1 s1 D2 s2 -> spreads D s D2 s2.
Proof. intros (A & B & C) (A' & B' & C'). split; [exact (tr_trans P PC _ _ _ A A')|split; auto]. Qed.
Lemma inv_wf s : inv s -> wf s.
Proof.
  intros [A B C D F H I J K L M]. constructor; auto.
  - intros l _. split; intros x _ [].
  - intros k X. split; [apply (J k X)|intros []].
  - intros l [].
  - intros l [].
Qed.
Lemma spreads_set D s l c : inv s -> shut D s -> D l -> ok_cell s c -> (forall y, sees c y -> D y) -> spreads D s D (set_cell s l c).
Proof.
  intros I SH L O K. destruct (SH l L) as (OL & L5 & _).
  assert (T : tr s (set_cell s l c)) by (apply tr_set_cell; auto; intros; lia).
  split; [exact T|]. split; [auto|]. intros z Z. destruct (SH z Z) as (OZ & Z5 & KZ).
  split; [exact (ok_loc_tr P PC _ _ _ T OZ)|]. split; [exact Z5|]. cbn [set_cell hp]. intros y.
  destruct (Nat.eq_dec z l) as [->|N]; [rewrite upd_same|rewrite upd_other by auto]; auto.
Qed.
Lemma sees_reset c t y : ~ sees (reset_cell c t) y.
Proof. unfold sees. rewrite kvs_reset, arr_reset. destruct (c_dt _); intros []. Qed.
Lemma sees_leaf c y : (forall t, t = TObject \/ t = TArray -> c_dt c <> t) -> ~ sees c y.
Proof. intros H. unfold sees. pose proof (H TObject (or_introl eq_refl)). pose proof (H TArray (or_intror eq_refl)). destruct (c_dt c); auto. Qed.
Lemma okc_reset s c t : ok_cell s c -> ok_cell s (reset_cell c t).
Proof.
  intros [A B]. split; [|rewrite own_reset; exact B]. intros x [X|X]; [rewrite kvs_reset in X|rewrite arr_reset in X]; destruct X.
Qed.
Lemma spreads_reset D s l t : inv s -> shut D s -> D l -> spreads D s D (Reset s l t).
Proof.
  intros I SH L. destruct (SH l L) as (OL & L5 & _). unfold Reset. destruct (ReadOnly l); [apply spreads_refl; auto|].
  apply spreads_set; auto; [apply okc_reset; cok|]. intros y Y. destruct (sees_reset _ _ _ Y).
Qed.
Lemma spreads_ensure (b : bool) D s l t : inv s -> shut D s -> D l -> spreads D s D (if b then s else Reset s l t).
Proof. intros. destruct b; [apply spreads_refl; auto|apply spreads_reset; auto]. Qed.
(** A new cell. *)
Lemma spreads_get D s c t : inv s -> ok_cache s c -> shut D s ->
  let r := fst (getValue G s c t) in
  spreads D s (fun z => D z \/ z = r) (snd (getValue G s c t)) /\ (D r -> forall z, D z -> z <> r -> hp (snd (getValue G s c t)) z = hp s z).
Proof.
  intros I C SH. cbv zeta. destruct (tr_getValue P PC G s c t I C) as (T & O & R5).
  assert (C' : HeapBase.ok_cache none_set s c) by (intros k K; split; [apply (C k K)|intros []]).
  pose proof (getValue_got G s c t (inv_wf s I) C') as GV.
  split; [|intros _ z Z N; apply (g_frame _ _ _ _ GV); auto; apply (SH z Z)].
  split; [exact T|]. split; [auto|]. intros z Z. destruct (Nat.eq_dec z (fst (getValue G s c t))) as [->|N].
  - split; [exact O|]. split; [exact R5|]. intros y Y. exfalso. destruct (g_clean _ _ _ _ GV) as (_ & _ & _ & K & _ & _ & A).
    unfold sees in Y. rewrite K, A in Y. destruct (c_dt _); exact Y.
  - destruct Z as [Z|Z]; [|contradiction]. destruct (SH z Z) as (OZ & Z5 & KZ). split; [exact (ok_loc_tr P PC _ _ _ T OZ)|].
    split; [exact Z5|]. rewrite (g_frame _ _ _ _ GV); [|apply OZ|exact N]. auto.
Qed.

(** The cell an element goes to. *)
Lemma spreads_index D s l i t c : inv s -> ok_cache s c -> shut D s -> D l ->
  exists D', spreads D s D' (snd (SetIndexCached G s l i t c)) /\ D' (fst (SetIndexCached G s l i t c)).
Proof.
  intros I C SH L. unfold SetIndexCached.
  pose proof (spreads_ensure (vt_eqb (c_dt (hp s l)) TArray) D s l TArray I SH L) as T.
  assert (DT : c_dt (hp (if vt_eqb (c_dt (hp s l)) TArray then s else Reset s l TArray) l) = TArray).
  { destruct (vt_eqb (c_dt (hp s l)) TArray) eqn:V; [apply HeapBase.vt_eqb_eq in V; exact V|].
    destruct (SH l L) as (_ & L5 & _). unfold Reset. pose proof (proj2 (ReadOnly_ge l) L5) as RO. destruct (ReadOnly l); [discriminate|]. cbn [set_cell hp]. rewrite upd_same. reflexivity. }
  set (s1 := if vt_eqb _ _ then s else Reset s l TArray) in *. clearbody s1. destruct T as (T & _ & SH1).
  assert (I1 : inv s1) by apply T. pose proof (ok_cache_tr P PC _ _ _ T C) as C1.
  destruct (spreads_get D s1 c t I1 C1 SH1) as [OG _]. pose proof (tr_getValue P PC G s1 c t I1 C1) as (TG & OKR & _).
  assert (C' : HeapBase.ok_cache none_set s1 c) by (intros k K; split; [apply (C1 k K)|intros []]).
  pose proof (getValue_got G s1 c t (inv_wf s1 I1) C') as GV.
  destruct (getValue G s1 c t) as [r' s2]. cbn [fst snd] in *.
  assert (NEW : forall a, (forall y, In (Some y) a -> y = r' \/ In (Some y) (c_arr (hp s2 l))) ->
     exists D', spreads D s D' (set_cell s2 l (w_arr (hp s2 l) a)) /\ D' r').
  { intros a A. exists (fun z => D z \/ z = r'). split; [|right; reflexivity]. destruct OG as (_ & OS & OG).
    destruct (OG l (or_introl L)) as (OL2 & _ & KL).
    refine (spreads_trans D s D s1 _ _ (conj T (conj (fun z Z => Z) SH1)) _).
    refine (spreads_trans D s1 _ s2 _ _ (conj TG (conj OS OG)) _).
    assert (ok_cell s2 (hp s2 l)) by (apply (cell_ok_at P PC); [apply TG|exact OL2]).
    assert (DL : l = r' \/ c_dt (hp s2 l) = TArray).
    { destruct (Nat.eq_dec l r') as [Q|Q]; [auto|right]. rewrite (g_frame _ _ _ _ GV); auto. apply (SH1 l L). }
    assert (IN : forall y, In (Some y) a -> D y \/ y = r').
    { intros y Y. destruct (A y Y) as [->|Z]; [auto|]. destruct DL as [Q|Q].
      - destruct (g_clean _ _ _ _ GV) as (_ & _ & _ & _ & _ & _ & Q'). rewrite Q, Q' in Z. destruct Z.
      - apply KL. unfold sees. rewrite Q. exact Z. }
    apply spreads_set; [apply TG|exact OG|auto| |].
    - apply okc_arr; auto. intros y Y. destruct (A y Y) as [->|Z]; [exact OKR|]. apply H. right; exact Z.
    - intros y. unfold sees. destruct (c_dt (w_arr (hp s2 l) a)) eqn:Q; try (intros []; fail).
      + cbn [w_arr c_dt c_kvs] in *. intros Y. destruct DL as [Q'|Q']; [|congruence].
        destruct (g_clean _ _ _ _ GV) as (_ & _ & _ & Q2 & _). rewrite Q', Q2 in Y. destruct Y.
      + cbn [w_arr c_arr]. apply IN. }
  destruct (_ && _).
  - destruct (nth (Z.to_nat i) (c_arr (hp s1 l)) None) as [r|] eqn:N.
    + assert (R : D r).
      { apply (SH1 l L). unfold sees. rewrite DT. destruct (nth_in_or_default (Z.to_nat i) (c_arr (hp s1 l)) None) as [H|H]; rewrite N in H; [exact H|discriminate]. }
      destruct (vt_eqb (c_dt (hp s1 r)) t).
      { exists D. split; [|exact R]. split; [exact T|split; auto]. }
      destruct (ReadOnly r); cbn [fst snd].
      * apply NEW. intros y Y. apply In_set_nth in Y as [Y|Y]; [left; congruence|right; exact Y].
      * exists D. split; [|exact R]. refine (spreads_trans D s D s1 _ _ (conj T (conj (fun z Z => Z) SH1)) _). apply spreads_reset; auto.
    + cbn [fst snd]. apply NEW. intros y Y. apply In_set_nth in Y as [Y|Y]; [left; congruence|right; exact Y].
  - cbn [fst snd]. apply NEW. intros y Y. apply in_app_or in Y as [Y|[Y|[]]]; [right; exact Y|left; congruence].
Qed.
Lemma spreads_key D s l k t c r s' : inv s -> ok_cache s c -> shut D s -> D l ->
  SetKeyCached E G s l k t c = Ok (r, s') -> exists D', spreads D s D' s' /\ D' r.
Proof.
  intros I C SH L H. unfold SetKeyCached in H. cbv zeta in H. destruct (SH l L) as (OL & L5 & _).
  destruct (vt_eqb (c_dt (hp s l)) TArray && negb (x_str2int E k (-1) =? -1)).
  - unfold SetIndex in H. destruct (spreads_index D s l (x_str2int E k (-1)) t (c_own (hp s l)) I (own_ok s l I OL) SH L) as (D' & A & B).
    destruct (SetIndexCached G s l (x_str2int E k (-1)) t (c_own (hp s l))) as [r0 s0]. injection H as <- <-. eauto.
  - pose proof (spreads_ensure (vt_eqb (c_dt (hp s l)) TObject) D s l TObject I SH L) as T.
    assert (DT : c_dt (hp (if vt_eqb (c_dt (hp s l)) TObject then s else Reset s l TObject) l) = TObject).
    { destruct (vt_eqb (c_dt (hp s l)) TObject) eqn:V; [apply HeapBase.vt_eqb_eq in V; exact V|].
      unfold Reset. pose proof (proj2 (ReadOnly_ge l) L5) as RO. destruct (ReadOnly l); [discriminate|]. cbn [set_cell hp]. rewrite upd_same. reflexivity. }
    set (s1 := if vt_eqb _ _ then s else Reset s l TObject) in *. clearbody s1. destruct T as (T & _ & SH1).
    assert (I1 : inv s1) by apply T. destruct (SH1 l L) as (OL1 & _ & K1).
    assert (OI : spreads D s1 D (snd (obj_index E s1 l k)) /\ map snd (c_kvs (hp (snd (obj_index E s1 l k)) l)) = map snd (c_kvs (hp s1 l)) /\
                 c_dt (hp (snd (obj_index E s1 l k)) l) = TObject).
    { unfold obj_index. pose proof (snd_index_by_name E (c_unesc (hp s1 l)) (c_kvs (hp s1 l)) k) as M.
      destruct (index_by_name E (c_unesc (hp s1 l)) (c_kvs (hp s1 l)) k) as [ri [u' kvs']]. cbn [fst snd] in *.
      split; [|cbn [set_cell hp]; rewrite upd_same; cbn [w_obj c_kvs c_dt]; auto].
      apply spreads_set; auto.
      - assert (O1 : ok_cell s1 (hp s1 l)) by (apply (cell_ok_at P PC); auto). apply okc_obj_sub; [exact O1|]. rewrite M. auto.
      - intros y. unfold sees. cbn [w_obj c_dt c_kvs]. rewrite DT. intros Y. apply K1. unfold sees. rewrite DT.
        change (In (Some y) (map snd (c_kvs (hp s1 l)))). rewrite <- M. exact Y. }
    destruct (obj_index E s1 l k) as [ri s2]. cbn [snd] in OI. destruct OI as ((T2 & _ & SH2) & M & DT2).
    assert (T12 := tr_trans P PC _ _ _ T T2). assert (I2 : inv s2) by apply T2.
    pose proof (ok_cache_tr P PC _ _ _ T12 C) as C2. destruct (SH2 l L) as (OL2 & _ & K2).
    destruct (spreads_get D s2 c t I2 C2 SH2) as [OG _]. pose proof (tr_getValue P PC G s2 c t I2 C2) as (TG & OKR & _).
    assert (C' : HeapBase.ok_cache none_set s2 c) by (intros j K; split; [apply (C2 j K)|intros []]).
    pose proof (getValue_got G s2 c t (inv_wf s2 I2) C') as GV.
    destruct (getValue G s2 c t) as [r' s3] eqn:Q. cbn [fst snd] in *.
    assert (NEW : forall nc, ok_cell s3 nc -> (forall y, sees nc y -> y = r' \/ sees (hp s3 l) y) -> exists D', spreads D s D' (set_cell s3 l nc) /\ D' r').
    { intros nc ON A. exists (fun z => D z \/ z = r'). split; [|right; reflexivity]. destruct OG as (_ & OS & OG).
      refine (spreads_trans D s D s2 _ _ (conj T12 (conj (fun z Z => Z) SH2)) _).
      refine (spreads_trans D s2 _ s3 _ _ (conj TG (conj OS OG)) _).
      apply spreads_set; [apply TG|exact OG|auto|exact ON|]. intros y Y. destruct (A y Y) as [->|Z]; [auto|]. apply (OG l (or_introl L)); exact Z. }
    assert (I3 : inv s3) by apply TG. pose proof (ok_loc_tr P PC _ _ _ TG OL2) as OL3.
    assert (OK3 : ok_cell s3 (hp s3 l)) by cok.
    assert (OP : ok_ptr s3 (Some r')) by (apply ok_ptr_some; exact OKR).
    destruct ri as [i|].
    + destruct (nth_error (c_kvs (hp s2 l)) i) as [[k0 [r0|]]|] eqn:N; try discriminate.
      assert (R : D r0). { apply K2. unfold sees. rewrite DT2. apply nth_error_In in N. apply (in_map snd) in N. exact N. }
      destruct (ReadOnly r0).
      * injection H as <- <-. apply NEW; [apply okc_set_val; auto|]. intros y. unfold sees. cbn [w_obj c_dt c_kvs c_arr].
        destruct (c_dt (hp s3 l)); try (intros []; fail); [|auto]. intros Y. apply In_snd_set_val in Y as [Y|Y]; [left; congruence|right; exact Y].
      * exists D. destruct (vt_eqb (c_dt (hp s2 r0)) t); injection H as <- <-; (split; [|exact R]).
        -- split; [exact T12|split; auto].
        -- refine (spreads_trans D s D s2 _ _ (conj T12 (conj (fun z Z => Z) SH2)) _). apply spreads_reset; auto.
    + injection H as <- <-. apply NEW; [apply okc_push; auto|]. intros y. unfold sees. rewrite dt_push.
      assert (KV : c_kvs (push_kv G (hp s3 l) k (Some r')) = c_kvs (hp s3 l) ++ [(k, Some r')] /\ c_arr (push_kv G (hp s3 l) k (Some r')) = c_arr (hp s3 l)).
      { unfold push_kv. destruct (c_spare (hp s3 l)); auto. }
      destruct KV as [-> ->]. destruct (c_dt (hp s3 l)); try (intros []; fail); [|auto].
      rewrite map_app. intros Y. apply in_app_or in Y as [Y|[Y|[]]]; [right; exact Y|left; cbn [snd] in Y; congruence].
Qed.
Lemma spreads_slot arr D s l k i t c r s' : inv s -> ok_cache s c -> shut D s -> D l ->
  hb_slot E G arr s l k i t c = Ok (r, s') -> exists D', spreads D s D' s' /\ D' r.
Proof.
  intros I C SH L H. unfold hb_slot in H. destruct arr; [|eapply spreads_key; eauto].
  destruct (spreads_index D s l i t c I C SH L) as (D' & A & B). destruct (SetIndexCached G s l i t c) as [r0 s0].
  apply ok_pair in H as [<- <-]. eauto.
Qed.

(** Filling the cell of a scalar. *)
Lemma spreads_leaf D s l c : inv s -> shut D s -> D l -> ok_cell s c -> c_dt c <> TObject -> c_dt c <> TArray -> spreads D s D (set_cell s l c).
Proof.
  intros I SH L O N1 N2. apply spreads_set; auto. intros y Y. exfalso. revert Y. apply sees_leaf. intros t [-> | ->]; auto.
Qed.
Lemma spreads_set_after (b : bool) D s l t f : inv s -> shut D s -> D l -> t <> TObject -> t <> TArray ->
  (b = true -> c_dt (hp s l) <> TObject /\ c_dt (hp s l) <> TArray) ->
  (forall s1 c, ok_cell s1 c -> ok_cell s1 (f c)) -> (forall c, c_dt (f c) = c_dt c) ->
  spreads D s D (let s1 := if b then s else Reset s l t in set_cell s1 l (f (hp s1 l))).
Proof.
  intros I SH L N1 N2 B F Q. cbv zeta. pose proof (spreads_ensure b D s l t I SH L) as T.
  assert (X : c_dt (hp (if b then s else Reset s l t) l) <> TObject /\ c_dt (hp (if b then s else Reset s l t) l) <> TArray).
  { destruct b; [auto|]. unfold Reset. destruct (SH l L) as (_ & L5 & _). pose proof (proj2 (ReadOnly_ge l) L5) as RO.
    destruct (ReadOnly l); [discriminate|]. cbn [set_cell hp]. rewrite upd_same, dt_reset. auto. }
  set (s1 := if b then s else Reset s l t) in *. clearbody s1. apply (spreads_trans D s D s1 D _ T).
  destruct T as (T & _ & SH1). apply spreads_leaf; auto; [apply T| |rewrite Q; apply X|rewrite Q; apply X].
  apply F. apply (cell_ok_at P PC); [apply T|apply (SH1 l L)].
Qed.
Lemma spreads_binary D s l b : inv s -> shut D s -> D l -> spreads D s D (SetBinary s l b).
Proof.
  intros I SH L. unfold SetBinary. destruct (SH l L) as (OL & L5 & _).
  assert (OK : ok_cell s (hp s l)) by cok.
  destruct (c_dt (hp s l)) eqn:DT; try (apply spreads_refl; auto; fail).
  - apply spreads_leaf; auto; cbn [w_bin c_dt]; congruence.
  - destruct (c_bin (hp s l)); [|apply spreads_leaf; auto; cbn [w_bin c_dt]; congruence].
    apply (spreads_set_after false D s l TBinary (fun x => w_bin x b)); auto; discriminate.
Qed.
Lemma okc_kind s c t x : ok_cell s c -> ok_cell s (w_kind c t x).
Proof. intros [A B]. split; [exact A|exact B]. Qed.
Lemma spreads_kind D s l t x : inv s -> shut D s -> D l -> t <> TObject -> t <> TArray -> spreads D s D (set_cell s l (w_kind (hp s l) t x)).
Proof. intros I SH L N1 N2. destruct (SH l L) as (OL & L5 & _). apply spreads_leaf; auto. apply okc_kind. cok. Qed.
Lemma spreads_value D s x btype b s' r : inv s -> shut D s -> D x -> hb_value E s x btype b = Ok (s', r) -> spreads D s D s'.
Proof.
  intros I SH L H. unfold hb_value in H. destruct (SH x L) as (OL & L5 & _). assert (OK : ok_cell s (hp s x)) by cok.
  assert (BIN : forall t e y, t = TBinary \/ t = TExBinary -> spreads D s D (SetBinary (set_cell s x (w_kind (hp s x) t e)) x y)).
  { intros t e y T. assert (K : spreads D s D (set_cell s x (w_kind (hp s x) t e))) by (apply spreads_kind; auto; destruct T; congruence).
    apply (spreads_trans D s D _ D _ K). apply spreads_binary; auto; apply K. }
  repeat match type of H with (if ?c then _ else _) = _ => destruct c end;
    try (apply bind_ok in H as (u & _ & H)).
  - apply ok_pair in H as [<- _]. unfold SetDouble. destruct (ReadOnly x); [apply spreads_refl; auto|].
    apply (spreads_set_after _ D s x TDouble (fun c => w_sv c u)); auto; try discriminate.
    intros B. unfold is_dbl in B. destruct (c_dt (hp s x)); split; discriminate.
  - destruct (u <=? 0); [discriminate|]. apply bind_ok in H as (t & _ & H). apply ok_pair in H as [<- _].
    apply (spreads_set_after _ D s x TString (fun c => w_str c _)); auto; try discriminate.
    intros B. apply HeapBase.vt_eqb_eq in B. rewrite B. split; discriminate.
  - destruct (skipn 4 b) as [|sub b1]; [discriminate|]. destruct (sub =? 2).
    + destruct (_ <? _)%nat; [discriminate|]. apply bind_ok in H as (n & _ & H). destruct (_ <? _)%nat; [discriminate|].
      destruct (_ <? n).
      * apply ok_pair in H as [<- _]. apply spreads_kind; auto; discriminate.
      * apply bind_ok in H as (y & _ & H). apply ok_pair in H as [<- _].
        assert (K : spreads D s D (set_cell s x (w_kind (hp s x) TExBinary BsonModel.BSON_Binary))) by (apply spreads_kind; auto; discriminate).
        set (s1 := set_cell _ _ _) in *. clearbody s1. apply (spreads_trans D s D _ D _ K).
        assert (K2 : spreads D s1 D (set_cell s1 x (w_kind (hp s1 x) TBinary 0))) by (apply spreads_kind; auto; try discriminate; apply K).
        apply (spreads_trans D s1 D _ D _ K2). apply spreads_binary; auto; apply K2.
    + apply bind_ok in H as (y & _ & H). apply ok_pair in H as [<- _]. apply BIN; auto.
  - apply ok_pair in H as [<- _]. apply BIN; auto.
  - destruct b as [|y b]; [discriminate|]. apply ok_pair in H as [<- _]. apply spreads_leaf; auto; cbn [w_dt c_dt]; destruct (y =? 1); discriminate.
  - apply ok_pair in H as [<- _]. unfold SetTime, SetDelphiTime.
    apply (spreads_set_after _ D s x TDateTime (fun c => w_sv c _)); auto; try discriminate.
    intros B. unfold is_dbl in B. destruct (c_dt (hp s x)); split; discriminate.
  - apply ok_pair in H as [<- _]. apply (spreads_set_after _ D s x TInt (fun c => w_sv c _)); auto; try discriminate.
    intros B. apply HeapBase.vt_eqb_eq in B. rewrite B. split; discriminate.
  - apply ok_pair in H as [<- _]. apply spreads_leaf; auto; try discriminate.
  - apply ok_pair in H as [<- _]. apply (spreads_set_after _ D s x TInt (fun c => w_sv c _)); auto; try discriminate.
    intros B. apply HeapBase.vt_eqb_eq in B. rewrite B. split; discriminate.
  - apply ok_pair in H as [<- _]. apply BIN; auto.
  - apply ok_pair in H as [<- _]. apply spreads_refl; auto.
Qed.
Lemma spreads_hb fuel :
  (forall arr D s l c b s' r, inv s -> ok_cache s c -> shut D s -> D l -> hb_doc E G fuel arr s l c b = Ok (s', r) -> exists D', spreads D s D' s') /\
  (forall arr D s l c b n i s' e, inv s -> ok_cache s c -> shut D s -> D l -> hb_loop E G fuel arr s l c b n i = Ok (s', e) -> exists D', spreads D s D' s').
Proof.
  induction fuel as [|f [ID IL]]; split; [intros; discriminate|intros; discriminate| |].
  - intros arr D s l c b s' r I C SH L H. cbn [hb_doc] in H.
    destruct (negb arr && (zlen b <=? 4)); [apply ok_pair in H as [<- _]; exists D; apply spreads_refl; auto|].
    apply bind_ok in H as (n & _ & H). destruct (zlen b <? n); [apply ok_pair in H as [<- _]; exists D; apply spreads_refl; auto|].
    apply bind_ok in H as ((s1 & e) & H1 & H). apply ok_pair in H as [<- _]. eapply IL; eauto.
  - intros arr D s l c b n i s' e I C SH L H. cbn [hb_loop] in H.
    destruct (n <=? i); [apply ok_pair in H as [<- _]; exists D; apply spreads_refl; auto|].
    destruct (skipn (Z.to_nat i) b) as [|btype b1]; [discriminate|].
    destruct (index_byte b1 0) as [ke|]; [|apply ok_pair in H as [<- _]; exists D; apply spreads_refl; auto].
    cbv zeta in H. set (ai := if arr then _ else _) in H. clearbody ai.
    destruct (arr && (ai =? -1)); [apply ok_pair in H as [<- _]; exists D; apply spreads_refl; auto|].
    apply bind_ok in H as ((s1 & r) & H1 & H).
    assert (X : exists D1, spreads D s D1 s1).
    { destruct (btype =? BsonModel.BSON_Array); [|destruct (btype =? BsonModel.BSON_EmbeddedDocument)];
        apply bind_ok in H1 as ((x & s0) & H0 & H1); apply (spreads_slot arr D) in H0 as (D0 & O0 & X0); auto;
        assert (C0 := ok_cache_tr P PC _ _ _ (proj1 O0) C); assert (I0 : inv s0) by apply O0.
      1, 2: (apply (ID _ D0) in H1 as (D1 & O1); auto; [|apply O0]; exists D1; exact (spreads_trans _ _ _ _ _ _ O0 O1)).
      exists D0. apply (spreads_trans _ _ _ _ _ _ O0). eapply spreads_value; [exact I0|apply O0|exact X0|exact H1]. }
    destruct X as (D1 & O1). destruct r as [er|m]; [apply ok_pair in H as [<- _]; eauto|].
    destruct (_ && _); [apply ok_pair in H as [<- _]; eauto|].
    assert (C1 := ok_cache_tr P PC _ _ _ (proj1 O1) C). destruct O1 as (T1 & S1 & SH1).
    destruct (IL arr D1 _ _ _ _ _ _ _ _ (tr_inv _ _ T1) C1 SH1 (S1 l L) H) as (D2 & O2).
    exists D2. exact (spreads_trans _ _ _ _ _ _ (conj T1 (conj S1 SH1)) O2).
Qed.
Lemma tr_NewBson s uc b s' x : inv s -> h_NewValueFromBson E G s uc b = Ok (s', x) ->
  tr s s' /\ forall p, x = inr p -> ok_ptr s' p.
Proof.
  intros I H. unfold h_NewValueFromBson in H.
  assert (Q : forall c s0, tr s s0 -> ok_cache s0 c ->
     (let (root, s1) := getValue G s0 c TObject in
      do (s2, r) <- hb_doc E G (BsonModel.bs_fuel b) false s1 root c b;
      Ok (s2, match r with inl e => inl e | inr _ => inr (Some root) end)) = Ok (s', x) ->
     tr s s' /\ forall p, x = inr p -> ok_ptr s' p).
  { intros c s0 T C H0. assert (I0 : inv s0) by apply T.
    assert (SH0 : shut (fun _ => False) s0) by (intros z []).
    destruct (spreads_get (fun _ => False) s0 c TObject I0 C SH0) as [OG _]. pose proof (tr_getValue P PC G s0 c TObject I0 C) as (TG & OKR & _).
    destruct (getValue G s0 c TObject) as [root s1]. cbn [fst snd] in *.
    apply bind_ok in H0 as ((s2 & r) & H1 & H0). apply ok_pair in H0 as [<- <-].
    destruct (proj1 (spreads_hb _) _ (fun z => False \/ z = root) _ _ _ _ _ _ (proj1 (proj1 OG)) (ok_cache_tr P PC _ _ _ TG C) (proj2 (proj2 OG)) (or_intror eq_refl) H1) as (D2 & O2).
    split; [exact (tr_trans P PC _ _ _ T (tr_trans P PC _ _ _ TG (proj1 O2)))|].
    intros p Q. destruct r; [discriminate|]. injection Q as <-. apply ok_ptr_some. exact (ok_loc_tr P PC _ _ _ (proj1 O2) OKR). }
  destruct uc as [ch|].
  - destruct (tr_getCache P PC s ch I) as [T C]. destruct (getCache s ch) as [k s0]. exact (Q _ _ T C H).
  - exact (Q _ _ (tr_refl P PC s I) (ok_cache_none PC s) H).
Qed.
Lemma tr_LoadBson s l b s' e : inv s -> ok_loc s l -> (5 <= l)%nat -> h_LoadFromBson E G s l b = Ok (s', e) -> tr s s'.
Proof.
  intros I O L5 H. unfold h_LoadFromBson in H. apply bind_ok in H as (s1 & H1 & H).
  assert (NK : forall y, ~ sees (hp s1 l) y).
  { unfold Clear in H1. apply bind_ok in H1 as (s2 & _ & H1). injection H1 as <-. intros y. cbn [set_cell hp]. rewrite upd_same.
    unfold sees, clear_cell. destruct (c_dt (hp s2 l)); cbn; auto. }
  apply (tr_Clear P PC) in H1 as T; auto. assert (I1 : inv s1) by apply T. pose proof (ok_loc_tr P PC _ _ _ T O) as O1.
  assert (SH : shut (fun z => z = l) s1).
  { intros z ->. split; [exact O1|]. split; [exact L5|]. intros y Y. destruct (NK y Y). }
  destruct b as [|b0 b]; [apply ok_pair in H as [<- _]; exact T|].
  apply bind_ok in H as ((s2 & r) & H2 & H). apply ok_pair in H as [<- _].
  destruct (proj1 (spreads_hb _) _ (fun z => z = l) _ _ _ _ _ _ I1 (own_ok s1 l I1 O1) SH eq_refl H2) as (D2 & O2).
  exact (tr_trans P PC _ _ _ T (proj1 O2)).
Qed.

(** ** All calls *)
Theorem tr_run fuel s o r s' : inv s -> (forall l, In l (handles o) -> ok_loc s l) ->
  run E G fuel s o = Ok (r, s') -> tr s s' /\ ok_ptr s' r.
Proof.
  intros I Hh H.
  assert (HP : forall p, (forall l, In l (opt_list p) -> ok_loc s l) -> ok_ptr s p).
  { intros p Q l ->. apply Q. left; auto. }
  assert (R1 : forall x, tr s (snd x) /\ ok_loc (snd x) (fst x) -> ret1 x = Ok (r, s') -> tr s s' /\ ok_ptr s' r).
  { intros [x y] [A B] Q. unfold ret1 in Q. cbn [fst snd] in *. injection Q as <- <-. split; auto. apply ok_ptr_some; auto. }
  assert (R0 : forall x, tr s x -> ret0 x = Ok (r, s') -> tr s s' /\ ok_ptr s' r).
  { intros x A Q. unfold ret0 in Q. injection Q as <- <-. split; auto. apply ok_ptr_none. }
  assert (RR : forall x, (forall a b, x = Ok (a, b) -> tr s b /\ ok_loc b a) -> retr x = Ok (r, s') -> tr s s' /\ ok_ptr s' r).
  { intros x A Q. unfold retr in Q. apply bind_ok in Q as ((a & b) & Q1 & Q). injection Q as <- <-.
    apply A in Q1 as [? ?]. split; auto. apply ok_ptr_some; auto. }
  assert (RS : forall x, (forall b, x = Ok b -> tr s b) -> rets x = Ok (r, s') -> tr s s' /\ ok_ptr s' r).
  { intros x A Q. unfold rets in Q. apply bind_ok in Q as (b & Q1 & Q). injection Q as <- <-.
    split; auto. apply ok_ptr_none. }
  assert (RP : forall x : ptr * st, tr s (snd x) /\ ok_ptr (snd x) (fst x) -> Ok x = Ok (r, s') -> tr s s' /\ ok_ptr s' r).
  { intros [x y] A Q. injection Q as <- <-. exact A. }
  destruct o; cbn [run handles] in *;
    try (assert (Ol : ok_loc s l) by (apply Hh; left; reflexivity)).
  - eapply R1; [|exact H]. apply tr_NewValue; auto.
  - eapply R1; [|exact H]. apply tr_new; auto. intros x [X|X]; destruct X.
  - eapply R1; [|exact H]. apply tr_new; auto. intros x [X|X]; destruct X.
  - eapply R1; [|exact H]. apply tr_NewCacheValue; auto.
  - eapply R0; [|exact H]. apply tr_Reset; auto.
  - eapply RS; [|exact H]. intros b. apply tr_Clear; auto.
  - eapply RS; [|exact H]. intros b. apply tr_FreeValue; auto.
  - eapply R0; [|exact H]. apply tr_SetInt; auto.
  - eapply R0; [|exact H]. apply tr_SetString; auto.
  - eapply R0; [|exact H]. apply tr_SetBool; auto.
  - eapply R0; [|exact H]. apply tr_SetDouble; auto.
  - eapply R0; [|exact H]. apply tr_SetDelphi; auto.
  - eapply R0; [|exact H]. apply tr_SetDelphi; auto.
  - eapply R0; [|exact H]. apply tr_SetFloat; auto.
  - eapply RR; [|exact H]. intros a b. apply tr_SetKey; auto.
  - eapply RR; [|exact H]. intros a b. apply tr_SetKeyCached; auto. apply own_ok; auto. apply Hh. right; left; auto.
  - eapply R0; [|exact H]. apply tr_SetKeyValue; auto. apply HP. intros; apply Hh. right; auto.
  - eapply R1; [|exact H]. apply tr_SetIndexCached; auto. apply own_ok; auto.
  - eapply R1; [|exact H]. apply tr_SetIndexCached; auto. apply own_ok; auto. apply Hh. right; left; auto.
  - eapply R0; [|exact H]. apply tr_SetIndexValue; auto. apply HP. intros; apply Hh. right; auto.
  - eapply R1; [|exact H]. apply tr_InsertValue; auto.
  - eapply R0; [|exact H]. apply tr_RemoveIndex; auto.
  - eapply R0; [|exact H]. apply tr_RemoveKey; auto.
  - eapply RP; [|exact H]. apply tr_ExtractValue; auto.
  - eapply RP; [|exact H]. apply tr_ValueByName; auto.
  - eapply RP; [|exact H]. unfold ValueByPath. destruct p as [l|].
    + apply tr_path; auto. apply Hh. left; auto.
    + split; [apply tr_refl; auto|apply ok_ptr_none].
  - eapply RP; [|exact H]. apply tr_Items; auto.
  - eapply RP; [|exact H]. split; [apply tr_refl; auto|apply ValueByIndex_ok; auto].
  - eapply R0; [|exact H]. apply tr_StringOf; auto.
  - apply bind_ok in H as ((b & s1) & H1 & H). eapply R0; [|exact H].
    eapply tr_Equal; [auto| | |exact H1]; apply HP; intros; apply Hh; apply in_or_app; auto.
  - eapply RR; [|exact H]. intros a b. apply tr_Clone; auto.
  - eapply RS; [|exact H]. intros b. apply tr_AddFrom; auto; [apply Hh; right; left; auto|].
    destruct donor as [d|]; [apply own_ok; auto; apply Hh; right; right; left; auto|apply ok_cache_none].
  - eapply RS; [|exact H]. intros b. apply tr_CopyFrom; auto; [apply Hh; right; left; auto|].
    destruct donor as [d|]; [apply own_ok; auto; apply Hh; right; right; left; auto|apply ok_cache_none].
  - eapply RS; [|exact H]. intros b. apply tr_MergeWith; auto; apply HP; intros; apply Hh; apply in_or_app; auto.
  - apply tr_ForcePath in H; auto.
  - apply bind_ok in H as ((s1 & x) & H1 & H). apply tr_NewMsg in H1 as [T OK]; auto.
    destruct x as [e|p]; apply ok_pair in H as [<- <-]; (split; [exact T|]); [apply ok_ptr_none|apply OK; reflexivity].
  - apply bind_ok in H as ((s1 & x) & H1 & H). apply tr_LoadMsg in H1; auto.
    apply (R0 s1 H1 H).
  - apply bind_ok in H as ((s1 & x) & H1 & H). apply tr_NewJson in H1 as [T OK]; auto.
    destruct x as [e|p]; apply ok_pair in H as [<- <-]; (split; [exact T|]); [apply ok_ptr_none|apply OK; reflexivity].
  - apply bind_ok in H as ((s1 & [x|]) & H1 & H); [discriminate|]. apply tr_LoadJson in H1; auto.
    apply (R0 s1 H1 H).
  - apply bind_ok in H as ((s1 & x) & H1 & H). apply tr_NewBson in H1 as [T OK]; auto.
    destruct x as [e|p]; apply ok_pair in H as [<- <-]; (split; [exact T|]); [apply ok_ptr_none|apply OK; reflexivity].
  - destruct (ReadOnly l) eqn:RO; [discriminate|]. apply ReadOnly_ge in RO.
    apply bind_ok in H as ((s1 & x) & H1 & H). apply tr_LoadBson in H1; auto.
    apply (R0 s1 H1 H).
  - eapply RS; [|exact H]. intros b. apply tr_SetValue; auto.
  - eapply RS; [|exact H]. intros b Q.
    refine (proj1 (tr_assign g) false _ s (DKey l name) b I Ol (own_ok s donor I _) Q). apply Hh. right; left; auto.
  - eapply RS; [|exact H]. intros b Q.
    refine (proj1 (tr_assign g) false _ s (DIdx l i) b I Ol (own_ok s donor I _) Q). apply Hh. right; left; auto.
  - eapply R0; [|exact H]. apply tr_SetBinary; auto.
  - apply bind_ok in H as ((b & s1) & H1 & H). eapply R0; [|exact H]. eapply tr_json; [auto| |exact H1]. apply HP; auto.
  - apply bind_ok in H as ((b & s1) & H1 & H). eapply R0; [|exact H]. eapply tr_bson; [auto| |exact H1]. apply HP; auto.
Qed.

Theorem tr_runs s os s' : inv s -> runs E G P s os s' -> tr s s'.
Proof.
  intros I R. induction R as [s|fuel s o r s1 os s2 Hh H1 R IH]; [apply tr_refl; auto|].
  apply tr_run in H1 as [T _]; auto. exact (tr_trans P PC _ _ _ T (IH (tr_inv _ _ T))).
Qed.

End Conf.

(** Package initialisation. *)
Lemma wf_st0 : wf st0.
Proof.
  constructor; simpl; try (intros; tauto); try lia.
  - intros l H. replace (ReadOnly l) with true by (symmetry; apply ReadOnly_lt; auto). reflexivity.
  - intros l H. replace (ReadOnly l) with false by (symmetry; apply ReadOnly_ge; auto). reflexivity.
  - intros l H. destruct (ReadOnly l); split; intros x X; try discriminate X;
      destruct X as [X|X]; destruct X.
  - intros l H. destruct (ReadOnly l); split; intros x X; try discriminate X; destruct X as [X|X]; destruct X.
  - intros l [].
  - intros l [].
Qed.
