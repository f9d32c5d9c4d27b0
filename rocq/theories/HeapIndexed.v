(** Typed setters and getters by index. *)
From Verif Require Import Base Values Tactics HeapModel HeapSpec HeapBase HeapConf HeapGet ApiSpec HeapMap HeapCalls
  HeapObj HeapArr HeapForce HeapClone HeapMono GetModel HeapTyped.

(** ** Specification *)
(** The elements an indexed setter starts from: any other value is turned into an empty array first. *)
Definition elems (s : st) (l : nat) : list ptr := match c_dt (hp s l) with TArray => c_arr (hp s l) | _ => [] end.
(** A value that may be written to, with its elements in use. *)
Definition indexable (s : st) (l : nat) : Prop :=
  wf s /\ live s l /\ (5 <= l)%nat /\ forall x, In (Some x) (elems s l) -> live s x /\ x <> l.
(** Where the element ends up: at the index if there is such an element, else at the end. *)
Definition place_of (i : Z) (a : list ptr) : Z := if (0 <=? i) && (i <? zlen a) then i else zlen a.
(** The array has [r] there and its other elements as before; nothing else in use has changed. *)
Definition at_index (s : st) (l : nat) (i : Z) (s' : st) (r : nat) : Prop :=
  c_dt (hp s' l) = TArray /\ set_or_append i (Some r) (elems s l) (c_arr (hp s' l)) /\
  ValueByIndex s' l (place_of i (elems s l)) = Some r /\
  forall x, live s x -> x <> l -> x <> r -> hp s' x = hp s x.
(** What is stored at an index. *)
Definition item (s : st) (l : nat) (i : nat) : option ptr :=
  match c_dt (hp s l) with
  | TArray => nth_error (c_arr (hp s l)) i
  | TObject => option_map snd (nth_error (c_kvs (hp s l)) i)
  | _ => None
  end.

Section Indexed.
Variable E : env.
Variable G : nat -> nat.
Notation N := none_set.

Lemma indexable_reset s l : indexable s l ->
  let s1 := if vt_eqb (c_dt (hp s l)) TArray then s else Reset s l TArray in
  good_arr s1 l /\ c_arr (hp s1 l) = elems s l /\ (forall x, live s1 x <-> live s x) /\ (forall x, x <> l -> hp s1 x = hp s x) /\
  c_own (hp s1 l) = c_own (hp s l) /\ (forall c, ok_cache N s c -> ok_cache N s1 c).
Proof.
  intros (W & L & L5 & CH). unfold elems in *. destruct (vt_eqb (c_dt (hp s l)) TArray) eqn:Q.
  - apply vt_eqb_eq in Q. rewrite Q in CH |- *. cbv zeta.
    split; [split; [exact W|split; [exact L|split; [exact Q|]]]; intros I; destruct (CH l I) as [_ X]; auto|].
    split; [reflexivity|]. split; [intros x; reflexivity|]. auto.
  - cbv zeta. assert (EL : (match c_dt (hp s l) with TArray => c_arr (hp s l) | _ => [] end) = []).
    { destruct (c_dt (hp s l)); auto; discriminate Q. }
    rewrite EL. pose proof (tr_Reset N N s l TArray W (ok_of_live _ _ L)) as TR.
    assert (RS : Reset s l TArray = set_cell s l (reset_cell (hp s l) TArray)) by (apply reset_5; auto).
    assert (H : hp (Reset s l TArray) l = reset_cell (hp s l) TArray) by (rewrite RS; cbn [set_cell hp]; apply upd_same).
    assert (A : c_arr (reset_cell (hp s l) TArray) = []).
    { unfold reset_cell. destruct (c_kvs (hp s l)); reflexivity. }
    split; [|split; [rewrite H; exact A|split; [intros x; rewrite RS; reflexivity|split]]].
    + split; [apply TR|]. split; [rewrite RS; exact L|]. rewrite H, A, dt_reset. split; auto.
    + intros x X. rewrite RS. cbn [set_cell hp]. apply upd_other; auto.
    + split; [rewrite H; unfold reset_cell; destruct (c_kvs (hp s l)); reflexivity|].
      intros c OC. exact (ok_cache_tr N N _ _ _ TR OC).
Qed.

Lemma index_place s' l i r a : c_dt (hp s' l) = TArray -> set_or_append i (Some r) a (c_arr (hp s' l)) ->
  ValueByIndex s' l (place_of i a) = Some r.
Proof.
  intros D P. unfold ValueByIndex, place_of. rewrite D. destruct P as [[B (p & y & q & -> & Q & ->)]|[B ->]].
  - rewrite (proj2 (range_dec i (p ++ y :: q)) B). cbv iota.
    assert (B' : (0 <=? i) && (i <? zlen (@app ptr p (@cons ptr (Some r) q))) = true).
    { apply range_dec. unfold zlen in *. rewrite app_length in *. cbn [List.length] in *. exact B. }
    rewrite B'. replace (Z.to_nat i) with (List.length p) by (unfold zlen in Q; lia).
    rewrite app_nth2, Nat.sub_diag by auto. reflexivity.
  - assert (B1 : (0 <=? i) && (i <? zlen a) = false).
    { destruct ((0 <=? i) && (i <? zlen a)) eqn:Q; auto. apply range_dec in Q. destruct (B Q). }
    rewrite B1. cbv iota. assert (B' : (0 <=? zlen a) && (zlen a <? zlen (@app ptr a (@cons ptr (Some r) []))) = true).
    { apply range_dec. unfold zlen. rewrite app_length. cbn [List.length]. lia. }
    rewrite B'. replace (Z.to_nat (zlen a)) with (List.length a) by (unfold zlen; lia).
    rewrite app_nth2, Nat.sub_diag by auto. reflexivity.
Qed.

(** [SetIndex] gives a value of the type asked for. *)
Lemma index_spec s l i t r s' : indexable s l -> SetIndex G s l i t = (r, s') ->
  at_index s l i s' r /\ c_dt (hp s' r) = t /\ r <> l /\ wf s'.
Proof.
  intros IX H. pose proof IX as (W & L & L5 & CH). destruct (indexable_reset s l IX) as (GA & EL & LV & FR & OW & OK).
  unfold SetIndex in H.
  assert (H' : SetIndexCached G (if vt_eqb (c_dt (hp s l)) TArray then s else Reset s l TArray) l i t (c_own (hp s l)) = (r, s')).
  { revert H. unfold SetIndexCached. cbv zeta. pose proof (proj1 (proj2 (proj2 GA))) as T.
    set (s1 := if vt_eqb (c_dt (hp s l)) TArray then s else Reset s l TArray) in *. rewrite T.
    change (vt_eqb TArray TArray) with true. cbv iota. auto. }
  clear H. assert (OC : ok_cache N (if vt_eqb (c_dt (hp s l)) TArray then s else Reset s l TArray) (c_own (hp s l))).
  { apply OK. apply own_okc; auto. }
  set (s1 := if vt_eqb (c_dt (hp s l)) TArray then s else Reset s l TArray) in *. clearbody s1.
  destruct (arr_set_cached_spec G s1 l i t _ r s' GA OC H') as [G3 P3]. rewrite EL in P3.
  assert (CORE : c_dt (hp s' r) = t /\ r <> l /\ forall x, live s1 x -> x <> l -> x <> r -> hp s' x = hp s1 x).
  { unfold SetIndexCached in H'. pose proof GA as (W1 & L1 & T1 & SF). rewrite T1 in H'. change (vt_eqb TArray TArray) with true in H'.
    cbv iota zeta in H'. pose proof (getValue_got G s1 (c_own (hp s l)) t W1 OC) as GV.
    assert (NEW : forall r' s4 a, getValue G s1 (c_own (hp s l)) t = (r', s4) -> (r', set_cell s4 l (w_arr (hp s4 l) a)) = (r, s') ->
       c_dt (hp s' r) = t /\ r <> l /\ forall x, live s1 x -> x <> l -> x <> r -> hp s' x = hp s1 x).
    { intros r' s4 a Q X. rewrite Q in GV. cbn [fst snd] in GV. injection X as <- <-.
      destruct (got_frame _ _ _ _ l GV L1) as [_ RN]. split; [|split].
      - cbn [set_cell hp]. rewrite upd_other by auto. apply (g_clean _ _ _ _ GV).
      - auto.
      - intros x X Xl Xr. cbn [set_cell hp]. rewrite upd_other by auto. apply (got_frame _ _ _ _ x GV X). }
    destruct ((0 <=? i) && (i <? zlen (c_arr (hp s1 l)))) eqn:BB.
    - apply range_dec in BB. destruct (nth (Z.to_nat i) (c_arr (hp s1 l)) None) as [r0|] eqn:NT.
      + assert (I0 : In (Some r0) (c_arr (hp s1 l))) by (rewrite <- NT; apply nth_In; unfold zlen in BB; lia).
        assert (R0 : r0 <> l) by (intros ->; auto).
        destruct (vt_eqb (c_dt (hp s1 r0)) t) eqn:TE.
        * injection H' as <- <-. apply vt_eqb_eq in TE. auto.
        * destruct (ReadOnly r0) eqn:RO.
          -- destruct (getValue G s1 (c_own (hp s l)) t) as [r' s4] eqn:Q. eapply NEW; eauto.
          -- injection H' as <- <-. unfold Reset. rewrite RO. cbn [set_cell hp]. rewrite upd_same. split; [apply dt_reset|].
             split; [auto|]. intros x X Xl Xr. apply upd_other; auto.
      + destruct (getValue G s1 (c_own (hp s l)) t) as [r' s4] eqn:Q. eapply NEW; eauto.
    - destruct (getValue G s1 (c_own (hp s l)) t) as [r' s4] eqn:Q. eapply NEW; eauto. }
  destruct CORE as (D & RL & F). split; [|split; [exact D|split; [exact RL|apply G3]]].
  assert (T3 : c_dt (hp s' l) = TArray) by apply G3.
  split; [exact T3|split; [exact P3|split; [eapply index_place; eauto|]]].
  intros x X Xl Xr. rewrite F; auto. apply LV; auto.
Qed.

Lemma index_then s l i s1 s2 r : at_index s l i s1 r -> r <> l -> touches s1 s2 r -> at_index s l i s2 r.
Proof.
  intros (D & P & V & F) RL (TF & _). unfold at_index, ValueByIndex in *. rewrite (TF l) by auto.
  split; [exact D|split; [exact P|split; [exact V|]]]. intros x X Xl Xr. rewrite TF by auto. auto.
Qed.
Lemma index_5 s t r : wf s -> c_dt (hp s r) = t -> vt_code t < vt_code TNull -> (5 <= r)%nat.
Proof.
  intros W D L. destruct (Nat.lt_ge_cases r 5) as [X|X]; auto.
  rewrite (i_const _ _ _ W r X) in D. destruct r as [|[|[|[|[|]]]]]; cbn in D; subst t; cbn in L; lia.
Qed.

Lemma index_int T s l i n : indexable s l -> - 2^63 <= n < 2^63 -> let s' := SetIndexInt G s l i n in
  exists r, at_index s l i s' r /\ c_dt (hp s' r) = TInt /\ reads_int E T (hp s' r) n /\
    forall d, IntByIndex E s' l (place_of i (elems s l)) d = n.
Proof.
  intros IX B s'. subst s'. unfold SetIndexInt. destruct (SetIndex G s l i TInt) as [r s1] eqn:H.
  destruct (index_spec _ _ _ _ _ _ IX H) as (A & D & RL & W). pose proof (index_5 _ _ _ W D eq_refl) as R5.
  destruct (set_int E T s1 r n R5 B) as [R TC]. pose proof (index_then _ _ _ _ _ _ A RL TC) as A2.
  exists r. split; [exact A2|]. split; [|split; [exact R|]].
  - unfold SetInt. cbn [set_cell hp]. rewrite upd_same. cbn [w_sv c_dt]. apply ensure_dt; auto.
  - intros d. unfold IntByIndex. rewrite (proj1 (proj2 (proj2 A2))). apply R.
Qed.
Lemma index_string s l i b : indexable s l -> let s' := SetIndexString G s l i b in
  exists r, at_index s l i s' r /\ c_dt (hp s' r) = TString /\ reads_text E (hp s' r) b /\
    forall d, fst (StringByIndex E s' l (place_of i (elems s l)) d) = b.
Proof.
  intros IX s'. subst s'. unfold SetIndexString. destruct (SetIndex G s l i TString) as [r s1] eqn:H.
  destruct (index_spec _ _ _ _ _ _ IX H) as (A & D & RL & W).
  pose proof (index_then _ _ _ _ _ _ A RL (touch_set s1 r (w_str (hp s1 r) b))) as A2.
  assert (D2 : c_dt (hp (set_cell s1 r (w_str (hp s1 r) b)) r) = TString) by (cbn [set_cell hp]; rewrite upd_same; exact D).
  assert (R : reads_text E (hp (set_cell s1 r (w_str (hp s1 r) b)) r) b).
  { cbn [set_cell hp]. rewrite upd_same. apply cell_text; auto. }
  exists r. split; [exact A2|]. split; [exact D2|]. split; [exact R|].
  intros d. unfold StringByIndex. rewrite (proj1 (proj2 (proj2 A2))). inversion R as [S0 _ _ _ _].
  destruct (StringOf E _) as [y c]. exact S0.
Qed.
Lemma index_bool s l i b : indexable s l -> let s' := SetIndexBool G s l i b in
  exists r, at_index s l i s' r /\ reads_bool E (hp s' r) b /\
    forall d, BoolByIndex E s' l (place_of i (elems s l)) d = b.
Proof.
  intros IX s'. subst s'. unfold SetIndexBool. destruct (SetIndex G s l i (if b then TTrue else TFalse)) as [r s1] eqn:H.
  destruct (index_spec _ _ _ _ _ _ IX H) as (A & D & RL & W). cbn [snd].
  pose proof (cell_bool E _ b D) as R. exists r. split; [exact A|]. split; [exact R|].
  intros d. unfold BoolByIndex. rewrite (proj1 (proj2 (proj2 A))). apply R.
Qed.
Lemma set_keeps s l v : (5 <= l)%nat -> is_dbl (c_dt (hp s l)) = true ->
  c_dt (hp (SetDouble s l v) l) = c_dt (hp s l) /\ c_dt (hp (SetDelphiTime s l v) l) = c_dt (hp s l).
Proof.
  intros L D. unfold SetDouble, SetDelphiTime. rewrite (proj2 (ReadOnly_ge l) L), D. cbn [set_cell hp]. rewrite upd_same. auto.
Qed.
Lemma index_double T s l i v : indexable s l -> 0 <= v < 2^64 -> let s' := SetIndexDouble G s l i v in
  exists r, at_index s l i s' r /\ c_dt (hp s' r) = TDouble /\ reads_double E T (hp s' r) v /\
    forall d, DoubleByIndex E s' l (place_of i (elems s l)) d = v.
Proof.
  intros IX B s'. subst s'. unfold SetIndexDouble. destruct (SetIndex G s l i TDouble) as [r s1] eqn:H.
  destruct (index_spec _ _ _ _ _ _ IX H) as (A & D & RL & W). pose proof (index_5 _ _ _ W D eq_refl) as R5.
  destruct (set_double E T s1 r v R5 B) as [R TC]. pose proof (index_then _ _ _ _ _ _ A RL TC) as A2.
  exists r. split; [exact A2|]. split; [|split; [exact R|]].
  - destruct (set_keeps s1 r v R5) as [-> _]; [rewrite D; reflexivity|exact D].
  - intros d. unfold DoubleByIndex. rewrite (proj1 (proj2 (proj2 A2))). apply R.
Qed.
Lemma index_time T s l i t : indexable s l -> 0 <= x_delphi E t < 2^64 -> let s' := SetIndexTime E G s l i t in
  exists r, at_index s l i s' r /\ c_dt (hp s' r) = TDateTime /\ reads_double E T (hp s' r) (x_delphi E t) /\
    forall d, DoubleByIndex E s' l (place_of i (elems s l)) d = x_delphi E t.
Proof.
  intros IX B s'. subst s'. unfold SetIndexTime. destruct (SetIndex G s l i TDateTime) as [r s1] eqn:H.
  destruct (index_spec _ _ _ _ _ _ IX H) as (A & D & RL & W). pose proof (index_5 _ _ _ W D eq_refl) as R5.
  destruct (set_delphi E T s1 r _ R5 B) as [R TC]. fold (SetTime E s1 r t) in *. pose proof (index_then _ _ _ _ _ _ A RL TC) as A2.
  exists r. split; [exact A2|]. split; [|split; [exact R|]].
  - unfold SetTime. destruct (set_keeps s1 r (x_delphi E t) R5) as [_ ->]; [rewrite D; reflexivity|exact D].
  - intros d. unfold DoubleByIndex. rewrite (proj1 (proj2 (proj2 A2))). apply R.
Qed.
Lemma index_float T s l i v : indexable s l -> 0 <= v < 2^32 -> let s' := SetIndexFloat G s l i v in
  exists r, at_index s l i s' r /\ c_dt (hp s' r) = TFloat /\ reads_float E T (hp s' r) v /\
    forall d, FloatByIndex E T s' l (place_of i (elems s l)) d = v.
Proof.
  intros IX B s'. subst s'. unfold SetIndexFloat. destruct (SetIndex G s l i TFloat) as [r s1] eqn:H.
  destruct (index_spec _ _ _ _ _ _ IX H) as (A & D & RL & W). pose proof (index_5 _ _ _ W D eq_refl) as R5.
  destruct (set_float E T s1 r v R5 B) as [R TC]. pose proof (index_then _ _ _ _ _ _ A RL TC) as A2.
  exists r. split; [exact A2|]. split; [|split; [exact R|]].
  - unfold SetFloat. rewrite (proj2 (ReadOnly_ge r) R5). cbn [set_cell hp]. rewrite upd_same. cbn [w_sv c_dt]. apply ensure_dt; auto.
  - intros d. unfold FloatByIndex. rewrite (proj1 (proj2 (proj2 A2))). apply R.
Qed.

(** ** Getters *)
Lemma item_spec s l i : ValueByIndex s l (Z.of_nat i) = match item s l i with Some p => p | None => None end.
Proof.
  unfold ValueByIndex, item. destruct (c_dt (hp s l)); auto.
  - destruct (nth_error (c_kvs (hp s l)) i) as [[k p]|] eqn:Q.
    + assert (B : (0 <=? Z.of_nat i) && (Z.of_nat i <? zlen (c_kvs (hp s l))) = true).
      { apply andb_true_iff. split; [apply Z.leb_le; lia|apply Z.ltb_lt]. unfold zlen.
        assert (i < List.length (c_kvs (hp s l)))%nat by (apply nth_error_Some; congruence). lia. }
      rewrite B, Nat2Z.id. cbn [option_map snd]. rewrite (nth_error_nth _ _ oob_kv Q). reflexivity.
    + apply nth_error_None in Q. assert (B : (0 <=? Z.of_nat i) && (Z.of_nat i <? zlen (c_kvs (hp s l))) = false).
      { apply andb_false_iff. right. apply Z.ltb_ge. unfold zlen. lia. }
      rewrite B. reflexivity.
  - destruct (nth_error (c_arr (hp s l)) i) as [p|] eqn:Q.
    + assert (B : (0 <=? Z.of_nat i) && (Z.of_nat i <? zlen (c_arr (hp s l))) = true).
      { apply range_dec. unfold zlen. assert (i < List.length (c_arr (hp s l)))%nat by (apply nth_error_Some; congruence). lia. }
      rewrite B, Nat2Z.id. rewrite (nth_error_nth _ _ oob Q). reflexivity.
    + apply nth_error_None in Q. assert (B : (0 <=? Z.of_nat i) && (Z.of_nat i <? zlen (c_arr (hp s l))) = false).
      { apply andb_false_iff. right. apply Z.ltb_ge. unfold zlen. lia. }
      rewrite B. reflexivity.
Qed.
Lemma item_neg s l i : i < 0 -> ValueByIndex s l i = None.
Proof.
  intros B. unfold ValueByIndex. rewrite (proj2 (Z.leb_gt 0 i)) by lia. cbn [andb]. destruct (c_dt (hp s l)); reflexivity.
Qed.
Lemma getters_found T s l i x : item s l i = Some (Some x) ->
  (forall d, IntByIndex E s l (Z.of_nat i) d = Int E (hp s x)) /\
  (forall d, BoolByIndex E s l (Z.of_nat i) d = Bool E (hp s x)) /\
  (forall d, DoubleByIndex E s l (Z.of_nat i) d = Double E (hp s x)) /\
  (forall d, FloatByIndex E T s l (Z.of_nat i) d = Float E T (hp s x)) /\
  (forall d, fst (StringByIndex E s l (Z.of_nat i) d) = fst (StringOf E (hp s x)) /\
     let s' := snd (StringByIndex E s l (Z.of_nat i) d) in
     hp s' x = snd (StringOf E (hp s x)) /\ (forall y, y <> x -> hp s' y = hp s y) /\
     nx s' = nx s /\ cs s' = cs s /\ nc s' = nc s /\ pl s' = pl s).
Proof.
  intros H. unfold IntByIndex, BoolByIndex, DoubleByIndex, FloatByIndex, StringByIndex. rewrite item_spec, H.
  repeat split; intros; destruct (StringOf E (hp s x)) as [b c]; cbn [fst snd set_cell hp nx cs nc pl]; auto.
  - apply upd_same.
  - apply upd_other; auto.
Qed.
Lemma getters_missing T s l i : i < 0 \/ item s l (Z.to_nat i) = None \/ item s l (Z.to_nat i) = Some None ->
  (forall d, IntByIndex E s l i d = d) /\ (forall d, BoolByIndex E s l i d = d) /\ (forall d, DoubleByIndex E s l i d = d) /\
  (forall d, FloatByIndex E T s l i d = d) /\ (forall d, StringByIndex E s l i d = (d, s)).
Proof.
  intros H. assert (V : ValueByIndex s l i = None).
  { destruct (Z.lt_ge_cases i 0) as [X|X]; [apply item_neg; auto|]. destruct H as [H|H]; [lia|].
    rewrite <- (Z2Nat.id i) by auto. rewrite item_spec. destruct H as [-> | ->]; reflexivity. }
  unfold IntByIndex, BoolByIndex, DoubleByIndex, FloatByIndex, StringByIndex. rewrite V. auto.
Qed.

(** ** Types of keyed setters *)
Hypothesis EO : env_ok E.
Lemma key_types s l name : target E s l name ->
  (forall n s', SetKeyInt E G s l name n = Ok s' -> exists r, fst (ValueByPath E s' (Some l) [name]) = Some r /\ c_dt (hp s' r) = TInt) /\
  (forall b s', SetKeyString E G s l name b = Ok s' -> exists r, fst (ValueByPath E s' (Some l) [name]) = Some r /\ c_dt (hp s' r) = TString) /\
  (forall v s', SetKeyFloat E G s l name v = Ok s' -> exists r, fst (ValueByPath E s' (Some l) [name]) = Some r /\ c_dt (hp s' r) = TFloat) /\
  (forall v s', SetKeyDouble E G s l name v = Ok s' -> exists r, fst (ValueByPath E s' (Some l) [name]) = Some r /\ c_dt (hp s' r) = TDouble) /\
  (forall v s', SetKeyTime E G s l name v = Ok s' -> exists r, fst (ValueByPath E s' (Some l) [name]) = Some r /\ c_dt (hp s' r) = TDateTime).
Proof.
  intros (Td & C & A).
  assert (K : forall t (F : st -> nat -> st) s', vt_code t < vt_code TNull ->
    (forall s1 r, (5 <= r)%nat -> c_dt (hp s1 r) = t -> touches s1 (F s1 r) r /\ c_dt (hp (F s1 r) r) = t) ->
    (do (r, s1) <- SetKey E G s l name t; Ok (F s1 r)) = Ok s' ->
    exists r, fst (ValueByPath E s' (Some l) [name]) = Some r /\ c_dt (hp s' r) = t).
  { intros t F s' LT HF H. apply bind_Ok in H as ([r s1] & H1 & H2). injection H2 as <-.
    pose proof (put_any E G EO _ _ _ _ _ _ Td C A H1) as P. assert (R5 : (5 <= r)%nat) by (eapply put_5; eauto).
    destruct (HF s1 r R5) as [TC D]; [apply P|]. destruct (put_then E _ _ _ _ _ _ _ P TC) as [HP FR].
    destruct (get_hop E G EO _ _ _ _ HP) as (V & _). exists r. auto. }
  split; [|split; [|split; [|split]]]; intros x s' H; revert H.
  - apply (K TInt (fun s1 r => SetInt s1 r x)); [reflexivity|]. intros s1 r R5 D. unfold SetInt. split.
    + eapply touch_trans; [apply touch_ensure|apply touch_set].
    + cbn [set_cell hp]. rewrite upd_same. cbn [w_sv c_dt]. apply ensure_dt; auto.
  - apply (K TString (fun s1 r => set_cell s1 r (w_str (hp s1 r) x))); [reflexivity|]. intros s1 r R5 D. split; [apply touch_set|].
    cbn [set_cell hp]. rewrite upd_same. exact D.
  - apply (K TFloat (fun s1 r => SetFloat s1 r x)); [reflexivity|]. intros s1 r R5 D. unfold SetFloat. rewrite (proj2 (ReadOnly_ge r) R5). split.
    + eapply touch_trans; [apply touch_ensure|apply touch_set].
    + cbn [set_cell hp]. rewrite upd_same. cbn [w_sv c_dt]. apply ensure_dt; auto.
  - apply (K TDouble (fun s1 r => SetDouble s1 r x)); [reflexivity|]. intros s1 r R5 D.
    split; [|destruct (set_keeps s1 r x R5) as [-> _]; [rewrite D; reflexivity|exact D]].
    unfold SetDouble. rewrite (proj2 (ReadOnly_ge r) R5), D. change (is_dbl TDouble) with true. apply touch_set.
  - apply (K TDateTime (fun s1 r => SetTime E s1 r x)); [reflexivity|]. intros s1 r R5 D. unfold SetTime.
    split; [|destruct (set_keeps s1 r (x_delphi E x) R5) as [_ ->]; [rewrite D; reflexivity|exact D]].
    unfold SetDelphiTime. rewrite D. change (is_dbl TDateTime) with true. apply touch_set.
Qed.
End Indexed.
