(** [ForcePath] creates the path it returns. *)
From Verif Require Import Base Values Tactics HeapModel HeapSpec HeapBase HeapConf HeapGet ApiSpec HeapMap HeapCalls HeapObj HeapArr.

(** ** Hypotheses of the theorem: the graph under [l] is in use, acyclic, without duplicate keys,
    and no array index of the path lies beyond the end of its array. *)
Record tidy (E : env) (s : st) (l : nat) : Prop := {
  td_wf : wf s;
  td_live : forall x, reach (hp s) l x -> live s x;
  td_keys : forall x, reach (hp s) l x -> c_dt (hp s x) = TObject -> distinct_keys (key_match E) (pairs E s x);
  td_acyc : forall x y, reach (hp s) l x -> sees (hp s x) y -> ~ reach (hp s) y x }.

Definition in_bounds (E : env) (s : st) (l : nat) (paths : list bytes) : Prop :=
  forall p key q m, paths = p ++ key :: q -> walk E s l p (Some m) -> c_dt (hp s m) = TArray ->
    x_str2int E key (-1) <= zlen (c_arr (hp s m)) /\ (q = [] -> -1 <= x_str2int E key (-1)).

Lemma reach_trans h a b c : reach h a b -> reach h b c -> reach h a c.
Proof. intros H1 H2. induction H2 as [|x y H2 IH S]; [exact H1|]. eapply reach_step; eauto. Qed.
Lemma reach_child h a b : sees (h a) b -> reach h a b.
Proof. intros S. eapply reach_step; [constructor|exact S]. Qed.
Lemma reach_same h h' a : (forall x, reach h a x -> h' x = h x) -> forall x, reach h' a x <-> reach h a x.
Proof.
  intros F x. split; intros H.
  - induction H as [|x y H IH S]; [constructor|]. eapply reach_step; [exact IH|]. rewrite <- (F x IH). exact S.
  - induction H as [|x y H IH S]; [constructor|]. eapply reach_step; [exact IH|]. rewrite (F x H). exact S.
Qed.
Lemma reach_sees h h' : (forall x y, sees (h' x) y <-> sees (h x) y) -> forall a b, reach h' a b <-> reach h a b.
Proof.
  intros F a b. split; intros H; induction H as [|x y H IH S]; try constructor; (eapply reach_step; [exact IH|]); apply F; auto.
Qed.
Lemma reach_leaf h a x : (forall y, ~ sees (h a) y) -> reach h a x -> x = a.
Proof. intros F H. induction H as [|x y H IH S]; auto. subst. exfalso. eapply F; eauto. Qed.
Lemma clean_leaf c t y : clean c t -> ~ sees c y.
Proof. intros (D & _ & _ & K & _ & _ & A) S. unfold sees in S. rewrite K, A in S. destruct (c_dt c); auto. Qed.
Lemma sees_child c y : sees c y -> child c y.
Proof. unfold sees. destruct (c_dt c); intros H; try destruct H; [left|right]; auto. Qed.

Section Force.
Variable E : env.
Variable G : nat -> nat.
Hypothesis EO : env_ok E.
Notation same := (key_match E).
Notation pairs := (pairs E).
Notation N := none_set.
Notation tidy := (tidy E).
Notation walk := (walk E).

Lemma tidy_child s l x : tidy s l -> reach (hp s) l x -> tidy s x.
Proof.
  intros [W L K A] R. split; auto.
  - intros y Y. apply L. eapply reach_trans; eauto.
  - intros y Y. apply K. eapply reach_trans; eauto.
  - intros y z Y. apply A. eapply reach_trans; eauto.
Qed.
Lemma tidy_good s l : tidy s l -> c_dt (hp s l) = TObject -> good_obj s l.
Proof.
  intros [W L K A] T. split; [exact W|split; [apply L; constructor|split; [exact T|]]].
  intros X. apply (A l l); [constructor|unfold sees; rewrite T; exact X|constructor].
Qed.
Lemma tidy_good_arr s l : tidy s l -> c_dt (hp s l) = TArray -> good_arr s l.
Proof.
  intros [W L K A] T. split; [exact W|split; [apply L; constructor|split; [exact T|]]].
  intros X. apply (A l l); [constructor|unfold sees; rewrite T; exact X|constructor].
Qed.

(** One step of a path. *)
Inductive hop (s : st) (m : nat) (key : bytes) (x : nat) : Prop :=
| hop_key k : c_dt (hp s m) = TObject -> distinct_keys same (pairs s m) ->
    In (k, Some x) (pairs s m) -> same k key = true -> hop s m key x
| hop_elem a b : c_dt (hp s m) = TArray -> zlen a = x_str2int E key (-1) ->
    c_arr (hp s m) = a ++ Some x :: b -> hop s m key x.
Inductive chain (s : st) : nat -> list bytes -> nat -> Prop :=
| chain_nil m : chain s m [] m
| chain_cons m key x rest n : hop s m key x -> chain s x rest n -> chain s m (key :: rest) n.

Lemma hop_lookup s m key x : hop s m key x -> fst (ValueByName E s m key) = Some x.
Proof.
  intros [k T D I S|a b T Z Q].
  - destruct (lookup_spec E EO s m key T D) as (V & _). rewrite V.
    apply In_nth_error in I as [i I]. rewrite (find_key_uniq E EO _ _ _ _ _ D I S).
    assert (I2 : nth_error (pairs s m) i = Some (k, (Some x : ptr))) by exact I. rewrite I2. reflexivity.
  - unfold ValueByName. rewrite T. cbn [fst]. rewrite <- Z, Q. unfold zlen. rewrite app_length. cbn [List.length].
    replace (Z.of_nat (List.length a) <? 0) with false by (symmetry; apply Z.ltb_ge; lia).
    replace (Z.of_nat (List.length a + S (List.length b)) - 1 <? Z.of_nat (List.length a)) with false by (symmetry; apply Z.ltb_ge; lia).
    cbn [orb]. rewrite Nat2Z.id, app_nth2, Nat.sub_diag by lia. reflexivity.
Qed.
Lemma lookup_hop s m key x : (c_dt (hp s m) = TObject -> distinct_keys same (pairs s m)) ->
  fst (ValueByName E s m key) = Some x -> hop s m key x.
Proof.
  intros D V. destruct (c_dt (hp s m)) eqn:T; try (unfold ValueByName in V; rewrite T in V; discriminate).
  - specialize (D eq_refl). destruct (lookup_spec E EO s m key T D) as (V' & _). rewrite V in V'. clear V.
    destruct (find_key E (pairs s m) key) as [i|] eqn:F; [|discriminate].
    apply find_key_some in F as (k & p & I & S). rewrite I in V'. subst p.
    apply (hop_key s m key x k); auto. eapply nth_error_In; eauto.
  - unfold ValueByName in V. rewrite T in V. cbn [fst] in V.
    set (n := x_str2int E key (-1)) in *.
    destruct ((n <? 0) || (zlen (c_arr (hp s m)) - 1 <? n)) eqn:B; [discriminate|].
    apply orb_false_iff in B as [B1 B2]. apply Z.ltb_ge in B1, B2. unfold zlen in B2.
    assert (Bn : (Z.to_nat n < List.length (c_arr (hp s m)))%nat) by lia.
    destruct (nth_split (c_arr (hp s m)) oob Bn) as (a & b & Q & La). rewrite V in Q.
    apply (hop_elem s m key x a b); auto. unfold zlen.
    transitivity (Z.of_nat (Z.to_nat n)); [f_equal; exact La|unfold n in *; lia].
Qed.
Lemma hop_sees s m key x : hop s m key x -> sees (hp s m) x.
Proof.
  intros [k T D I S|a b T Z Q]; unfold sees; rewrite T.
  - unfold HeapCalls.pairs in I. apply (in_map snd) in I. rewrite snd_unescape_keys in I. exact I.
  - rewrite Q. apply in_or_app. right; left; reflexivity.
Qed.
Lemma hop_same s s' m key x : hp s' m = hp s m -> hop s m key x -> hop s' m key x.
Proof.
  intros F [k T D I S|a b T Z Q].
  - apply (hop_key s' m key x k); unfold HeapCalls.pairs in *; rewrite ?F; auto.
  - apply (hop_elem s' m key x a b); rewrite ?F; auto.
Qed.
Lemma hop_walk s m key x rest r : hop s m key x -> walk s x rest r -> walk s m (key :: rest) r.
Proof.
  intros [k T D I S|a b T Z Q] W.
  - eapply walk_key; eauto.
  - eapply walk_elem; eauto.
Qed.

(** The state after a lookup: same cells but for the keys of the object looked at. *)
Record looked (s s1 : st) (m : nat) : Prop := {
  lk_frame : forall x, x <> m -> hp s1 x = hp s x;
  lk_dt : c_dt (hp s1 m) = c_dt (hp s m);
  lk_arr : c_arr (hp s1 m) = c_arr (hp s m);
  lk_kvs : map snd (c_kvs (hp s1 m)) = map snd (c_kvs (hp s m));
  lk_pairs : c_dt (hp s m) = TObject -> pairs s1 m = pairs s m;
  lk_live : forall x, live s x -> live s1 x;
  lk_nx : nx s1 = nx s }.
Lemma lookup_looked s m key : (c_dt (hp s m) = TObject -> distinct_keys same (pairs s m)) ->
  looked s (snd (ValueByName E s m key)) m.
Proof.
  intros D. constructor.
  - intros x Q. apply lookup_frame; auto.
  - unfold ValueByName. destruct (c_dt (hp s m)) eqn:T; auto.
    pose proof (lookup_spec E EO s m key T (D eq_refl)) as (_ & _ & _ & X & _). unfold ValueByName in X. rewrite T in X. exact X.
  - unfold ValueByName. destruct (c_dt (hp s m)); auto. unfold obj_index.
    destruct (index_by_name E (c_unesc (hp s m)) (c_kvs (hp s m)) key) as [r [u' kvs']]. cbn [snd hp set_cell].
    rewrite upd_same. reflexivity.
  - unfold ValueByName. destruct (c_dt (hp s m)) eqn:T; auto.
    pose proof (lookup_spec E EO s m key T (D eq_refl)) as (_ & _ & X & _). unfold ValueByName in X. rewrite T in X. exact X.
  - intros T. apply lookup_spec; auto.
  - intros x L. apply lookup_live; auto.
  - unfold ValueByName. destruct (c_dt (hp s m)); auto. unfold obj_index.
    destruct (index_by_name E (c_unesc (hp s m)) (c_kvs (hp s m)) key) as [r [u' kvs']]. reflexivity.
Qed.
Lemma looked_sees s s1 m : looked s s1 m -> forall x y, sees (hp s1 x) y <-> sees (hp s x) y.
Proof.
  intros K x y. destruct (Nat.eq_dec x m) as [->|Q]; [|rewrite (lk_frame _ _ _ K x Q); tauto].
  unfold sees. rewrite (lk_dt _ _ _ K), (lk_arr _ _ _ K), (lk_kvs _ _ _ K). tauto.
Qed.
Lemma looked_hop s s1 m x key y : looked s s1 m -> hop s x key y -> hop s1 x key y.
Proof.
  intros K. destruct (Nat.eq_dec x m) as [->|Q]; [|apply hop_same; apply (lk_frame _ _ _ K x Q)].
  intros [k T D I S|a b T Z A].
  - apply (hop_key s1 m key y k); rewrite ?(lk_dt _ _ _ K), ?(lk_pairs _ _ _ K T); auto.
  - apply (hop_elem s1 m key y a b); rewrite ?(lk_dt _ _ _ K), ?(lk_arr _ _ _ K); auto.
Qed.
Lemma looked_tidy s s1 m l : looked s s1 m -> wf s1 -> tidy s l -> tidy s1 l.
Proof.
  intros K W1 [W L D A]. pose proof (reach_sees _ _ (looked_sees _ _ _ K)) as R. constructor; auto.
  - intros x X. apply R in X. apply (lk_live _ _ _ K). auto.
  - intros x X T. apply R in X. destruct (Nat.eq_dec x m) as [->|Q].
    + rewrite (lk_dt _ _ _ K) in T. rewrite (lk_pairs _ _ _ K T). auto.
    + unfold HeapCalls.pairs in *. rewrite (lk_frame _ _ _ K x Q) in *. apply D; auto.
  - intros x y X S. apply R in X. apply (looked_sees _ _ _ K) in S. rewrite R. eauto.
Qed.

Lemma chain_path paths : forall s m n, chain s m paths n -> fst (path_loop E s m paths) = Some n.
Proof.
  induction paths as [|key rest IH]; intros s m n C; inversion C; subst; cbn [path_loop]; auto.
  pose proof (hop_lookup s m key x H2) as V.
  assert (K : looked s (snd (ValueByName E s m key)) m) by (apply lookup_looked; intros T; destruct H2; congruence || auto).
  destruct (ValueByName E s m key) as [v s1]. cbn [fst snd] in *. subst v. apply IH.
  clear - H4 K EO. induction H4; [constructor|]. econstructor; eauto. eapply looked_hop; eauto.
Qed.

(** Storing under a key or an index. *)
Record put (s : st) (m : nat) (key : bytes) (t : vtype) (n : nat) (s3 : st) : Prop := {
  p_wf : wf s3;
  p_live : forall x, live s x -> live s3 x;
  p_new_live : live s3 n;
  p_neq : n <> m;
  p_dt : c_dt (hp s3 n) = t;
  p_content : clean (hp s3 n) t \/ (hop s m key n /\ hp s3 n = hp s n);
  p_origin : ~ live s n \/ sees (hp s m) n;
  p_frame : forall x, live s x -> x <> m -> x <> n -> hp s3 x = hp s x;
  p_hop : hop s3 m key n }.

Lemma vt_eqb_eq a b : vt_eqb a b = true -> a = b.
Proof. destruct a, b; cbn; intros; congruence || discriminate. Qed.

Lemma find_set_same (m : list (bytes * ptr)) name i p : find_key E m name = Some i ->
  find_key E (set_val i p m) name = Some i /\ exists k, nth_error (set_val i p m) i = Some (k, p) /\ same k name = true.
Proof.
  intros F. pose proof (find_key_some E m name i F) as (k & x & I & S). split.
  - unfold set_val. rewrite I. clear S. revert i F I. induction m as [|[k0 x0] m IH]; intros i F I; [discriminate|].
    cbn [find_key] in F. destruct (same k0 name) eqn:Q.
    + injection F as <-. cbn [nth_error set_nth find_key] in *. injection I as <- <-. rewrite Q. reflexivity.
    + destruct (find_key E m name) as [j|] eqn:F'; [|discriminate]. injection F as <-.
      cbn [nth_error set_nth find_key] in *. rewrite Q. rewrite (IH j eq_refl I). reflexivity.
  - exists k. split; auto. unfold set_val. rewrite I. apply nth_set_nth_same. apply nth_error_Some. congruence.
Qed.

Lemma put_obj s m key t c n s3 : good_obj s m -> distinct_keys same (pairs s m) ->
  (forall x, sees (hp s m) x -> live s x) -> ok_cache N s c ->
  SetKeyCached E G s m key t c = Ok (n, s3) -> put s m key t n s3.
Proof.
  intros Gd D CL OC H. pose proof Gd as (W & L & T & SF).
  destruct (set_cached_spec E G EO s m key t c n s3 Gd D OC H) as [G3 P3].
  assert (D3 : distinct_keys same (pairs s3 m)).
  { rewrite P3.
    assert (X : repr E ([ESet key (Some n)] ++ as_history (pairs s m)) (match find_key E (pairs s m) key with
      | Some i => set_val i (Some n) (pairs s m) | None => pairs s m ++ [(key, Some n)] end)).
    { apply (repr_set E EO); auto. apply (repr_init E EO); auto. }
    apply X. }
  assert (HOP : hop s3 m key n).
  { destruct (find_key E (pairs s m) key) as [i|] eqn:F.
    - destruct (find_set_same (pairs s m) key i (Some n) F) as (_ & k & I & S).
      apply (hop_key s3 m key n k); auto; [apply G3|]. rewrite P3. eapply nth_error_In; eauto.
    - apply (hop_key s3 m key n key); auto; [apply G3| |].
      + rewrite P3. apply in_or_app; right; left; auto.
      + unfold key_match. rewrite beq_refl. apply orb_true_r. }
  unfold SetKeyCached in H. rewrite T in H. change (vt_eqb TObject TArray) with false in H.
  change (vt_eqb TObject TObject) with true in H. cbn [andb] in H. cbv zeta in H.
  destruct (obj_index_spec E EO s m key D) as (u' & kvs' & H1 & H2 & H3 & HN & H4).
  pose proof (tr_obj_index N N E s m key W (ok_of_live _ _ L)) as T2.
  destruct (obj_index E s m key) as [ri s2]. cbn [fst snd] in *.
  assert (W2 : wf s2) by (apply T2).
  assert (LV : forall x, live s x -> live s2 x) by (subst s2; intros x X; exact X).
  assert (VL : forall x, live s2 x -> live s x) by (subst s2; intros x X; exact X).
  assert (C2 : hp s2 m = w_obj (hp s m) u' kvs' (c_spare (hp s m))) by (subst s2; cbn [hp set_cell]; apply upd_same).
  assert (F2 : forall x, x <> m -> hp s2 x = hp s x) by (subst s2; cbn [hp set_cell]; intros x X; apply upd_other; auto).
  assert (OC2 : ok_cache N s2 c) by (exact (ok_cache_tr N N _ _ _ T2 OC)).
  pose proof (getValue_got G s2 c t W2 OC2) as GV.
  (* a new cell from the cache *)
  assert (NEW : forall cell', (forall x, live s x -> x <> m -> hp s3 x = hp (snd (getValue G s2 c t)) x) ->
     hp s3 (fst (getValue G s2 c t)) = hp (snd (getValue G s2 c t)) (fst (getValue G s2 c t)) ->
     n = fst (getValue G s2 c t) -> (forall x, live (snd (getValue G s2 c t)) x -> live s3 x) ->
     hp s3 m = cell' -> put s m key t n s3).
  { intros cell' FR CN Qn LL _. destruct (getValue G s2 c t) as [r' s4]. cbn [fst snd] in *. subst r'.
    destruct (got_frame _ _ _ _ m GV (LV m L)) as [_ RN].
    constructor; auto.
    - apply G3.
    - intros x X. apply LL, (g_lives _ _ _ _ GV), LV; auto.
    - apply LL, (g_live _ _ _ _ GV).
    - rewrite CN. apply (g_clean _ _ _ _ GV).
    - left. rewrite CN. apply (g_clean _ _ _ _ GV).
    - left. intros X. apply (g_new _ _ _ _ GV). apply LV; auto.
    - intros x X Q1 Q2. rewrite FR by auto. rewrite (proj1 (got_frame _ _ _ _ x GV (LV x X))). apply F2; auto. }
  assert (MN : m <> fst (getValue G s2 c t)) by (destruct (got_frame _ _ _ _ m GV (LV m L)) as [_ RN]; auto).
  destruct ri as [i|].
  - rewrite C2 in H. cbn [w_obj c_kvs] in H.
    destruct (nth_error kvs' i) as [[k [r0|]]|] eqn:NE; try discriminate.
    assert (I0 : In (Some r0) (map snd (c_kvs (hp s m)))).
    { rewrite <- H4. apply nth_error_In in NE. apply (in_map snd) in NE. exact NE. }
    assert (S0 : sees (hp s m) r0) by (unfold sees; rewrite T; exact I0).
    assert (R0 : r0 <> m) by (intros ->; auto).
    destruct (ReadOnly r0) eqn:RO.
    + destruct (getValue G s2 c t) as [r' s4]. cbn [fst snd] in *. apply ok_pair in H as [<- <-].
      eapply NEW; auto.
      * intros x X Q. cbn [hp set_cell]. apply upd_other; auto.
      * cbn [hp set_cell]. apply upd_other; auto.
    + destruct (vt_eqb (c_dt (hp s2 r0)) t) eqn:TE.
      * apply ok_pair in H as [<- <-]. apply vt_eqb_eq in TE.
        constructor; auto.
        -- right. split; [|apply F2; auto]. symmetry in H2.
           assert (NP : exists k', nth_error (pairs s m) i = Some (k', Some r0)).
           { assert (M : nth_error (map snd (pairs s m)) i = Some (Some r0)) by (rewrite nth_pairs, <- H4, nth_error_map, NE; reflexivity).
             rewrite nth_error_map in M. destruct (nth_error (pairs s m) i) as [[k' ?]|]; cbn in M; [|discriminate].
             injection M as ->. eauto. }
           destruct NP as [k' NP]. pose proof (find_key_some E _ _ _ H2) as (k2 & p2 & NP2 & SM).
           rewrite NP in NP2. injection NP2 as <- <-.
           apply (hop_key s m key r0 k'); auto. eapply nth_error_In; eauto.
      * apply ok_pair in H as [<- <-]. unfold Reset in *. rewrite RO in *.
        constructor; auto.
        -- apply G3.
        -- apply live_set_cell. auto.
        -- cbn [hp set_cell]. rewrite upd_same. apply dt_reset.
        -- left. cbn [hp set_cell]. rewrite upd_same. apply clean_reset.
        -- intros x X Q1 Q2. cbn [hp set_cell]. rewrite upd_other by auto. apply F2; auto.
  - destruct (getValue G s2 c t) as [r' s4]. cbn [fst snd] in *. apply ok_pair in H as [<- <-].
    eapply NEW; auto.
    + intros x X Q. cbn [hp set_cell]. apply upd_other; auto.
    + cbn [hp set_cell]. apply upd_other; auto.
Qed.
Lemma split_at {A} (a : list A) i y : nth_error a i = Some y ->
  exists p q, a = p ++ y :: q /\ List.length p = i.
Proof. intros H. apply nth_error_split in H as (p & q & H1 & H2). eauto. Qed.

Lemma put_arr s m key t c n s3 : good_arr s m ->
  (forall x, sees (hp s m) x -> live s x) -> ok_cache N s c ->
  0 <= x_str2int E key (-1) <= zlen (c_arr (hp s m)) ->
  SetIndexCached G s m (x_str2int E key (-1)) t c = (n, s3) -> put s m key t n s3.
Proof.
  intros Gd CL OC B H. pose proof Gd as (W & L & T & SF).
  destruct (arr_set_cached_spec G s m _ t c n s3 Gd OC H) as [G3 P3].
  set (i := x_str2int E key (-1)) in *.
  assert (HOP : hop s3 m key n).
  { destruct P3 as [[B3 (p & y & q & Q1 & Q2 & Q3)]|[B3 Q3]].
    - apply (hop_elem s3 m key n p q); auto. apply G3.
    - apply (hop_elem s3 m key n (c_arr (hp s m)) []); auto; [apply G3|].
      assert (X : zlen (c_arr (hp s m)) = i) by lia. exact X. }
  unfold SetIndexCached in H. rewrite T in H. change (vt_eqb TArray TArray) with true in H. cbv iota zeta in H.
  pose proof (getValue_got G s c t W OC) as GV.
  assert (NEW : (forall x, live s x -> x <> m -> hp s3 x = hp (snd (getValue G s c t)) x) ->
     hp s3 (fst (getValue G s c t)) = hp (snd (getValue G s c t)) (fst (getValue G s c t)) ->
     n = fst (getValue G s c t) -> (forall x, live (snd (getValue G s c t)) x -> live s3 x) -> put s m key t n s3).
  { intros FR CN Qn LL. destruct (getValue G s c t) as [r' s4]. cbn [fst snd] in *. subst r'.
    destruct (got_frame _ _ _ _ m GV L) as [_ RN].
    constructor; auto.
    - apply G3.
    - intros x X. apply LL, (g_lives _ _ _ _ GV); auto.
    - apply LL, (g_live _ _ _ _ GV).
    - rewrite CN. apply (g_clean _ _ _ _ GV).
    - left. rewrite CN. apply (g_clean _ _ _ _ GV).
    - left. apply (g_new _ _ _ _ GV).
    - intros x X Q1 Q2. rewrite FR by auto. apply (got_frame _ _ _ _ x GV X). }
  assert (MN : m <> fst (getValue G s c t)) by (destruct (got_frame _ _ _ _ m GV L) as [_ RN]; auto).
  destruct ((0 <=? i) && (i <? zlen (c_arr (hp s m)))) eqn:BB.
  - apply range_dec in BB.
    destruct (nth (Z.to_nat i) (c_arr (hp s m)) None) as [r0|] eqn:NT.
    + assert (Hi : (Z.to_nat i < List.length (c_arr (hp s m)))%nat) by (unfold zlen in *; lia).
      assert (I0 : In (Some r0) (c_arr (hp s m))) by (rewrite <- NT; apply nth_In; exact Hi).
      assert (S0 : sees (hp s m) r0) by (unfold sees; rewrite T; exact I0).
      assert (R0 : r0 <> m) by (intros ->; auto).
      destruct (vt_eqb (c_dt (hp s r0)) t) eqn:TE.
      * injection H as <- <-. apply vt_eqb_eq in TE. constructor; auto.
      * destruct (ReadOnly r0) eqn:RO.
        -- destruct (getValue G s c t) as [r' s4]. cbn [fst snd] in *. injection H as <- <-. apply NEW; auto.
           ++ intros x X Q. cbn [hp set_cell]. apply upd_other; auto.
           ++ cbn [hp set_cell]. apply upd_other; auto.
        -- injection H as <- <-. unfold Reset in *. rewrite RO in *. constructor; auto.
           ++ apply G3.
           ++ apply live_set_cell; auto.
           ++ cbn [hp set_cell]. rewrite upd_same. apply dt_reset.
           ++ left. cbn [hp set_cell]. rewrite upd_same. apply clean_reset.
           ++ intros x X Q1 Q2. cbn [hp set_cell]. apply upd_other; auto.
    + destruct (getValue G s c t) as [r' s4]. cbn [fst snd] in *. injection H as <- <-. apply NEW; auto.
      * intros x X Q. cbn [hp set_cell]. apply upd_other; auto.
      * cbn [hp set_cell]. apply upd_other; auto.
  - destruct (getValue G s c t) as [r' s4]. cbn [fst snd] in *. injection H as <- <-. apply NEW; auto.
    + intros x X Q. cbn [hp set_cell]. apply upd_other; auto.
    + cbn [hp set_cell]. apply upd_other; auto.
Qed.

(** A container that is first turned into an empty object. *)
Lemma put_reset s m key t c n s3 : wf s -> live s m -> (5 <= m)%nat -> ok_cache N s c ->
  SetKeyCached E G (Reset s m TObject) m key t c = Ok (n, s3) -> put s m key t n s3 /\ clean (hp s3 n) t.
Proof.
  intros W L L5 OC H.
  assert (RO : ReadOnly m = false) by (apply ReadOnly_ge; auto).
  pose proof (tr_Reset N N s m TObject W (ok_of_live _ _ L)) as TR.
  assert (OC1 : ok_cache N (Reset s m TObject) c) by (exact (ok_cache_tr N N _ _ _ TR OC)).
  assert (RS : Reset s m TObject = set_cell s m (reset_cell (hp s m) TObject)) by (unfold Reset; rewrite RO; reflexivity).
  assert (C1 : hp (Reset s m TObject) m = reset_cell (hp s m) TObject) by (rewrite RS; cbn [hp set_cell]; apply upd_same).
  assert (LV : forall x, live (Reset s m TObject) x <-> live s x) by (intros x; rewrite RS; reflexivity).
  assert (F1 : forall x, x <> m -> hp (Reset s m TObject) x = hp s x) by (intros x X; rewrite RS; cbn [hp set_cell]; apply upd_other; auto).
  assert (NS : forall x, ~ sees (hp (Reset s m TObject) m) x) by (intros x; rewrite C1; eapply clean_leaf, clean_reset).
  set (s1 := Reset s m TObject) in *. clearbody s1. clear RS.
  assert (Gd : good_obj s1 m).
  { split; [apply TR|split; [apply LV; auto|]]. rewrite C1, dt_reset, kvs_reset. split; auto. }
  assert (D : distinct_keys same (pairs s1 m)) by (unfold HeapCalls.pairs; rewrite C1, kvs_reset, unesc_reset; constructor).
  assert (CL : forall x, sees (hp s1 m) x -> live s1 x) by (intros x X; destruct (NS x X)).
  destruct (put_obj s1 m key t c n s3 Gd D CL OC1 H) as [A1 A2 A3 A4 A5 A6 A7 A8 A9].
  assert (CN : clean (hp s3 n) t).
  { destruct A6 as [A6|[A6 _]]; auto. apply hop_sees in A6. destruct (NS n A6). }
  split; [|exact CN].
  constructor; auto.
  - intros x X. apply A2. apply LV; auto.
  - left. destruct A7 as [A7|A7]; [|destruct (NS n A7)]. intros X; apply A7, LV; auto.
  - intros x X Q1 Q2. rewrite A8; auto. apply LV; auto.
Qed.

Lemma put_any s m key t n s3 : tidy s m -> (c_dt (hp s m) = TObject \/ c_dt (hp s m) = TArray) ->
  (c_dt (hp s m) = TArray -> -1 <= x_str2int E key (-1) <= zlen (c_arr (hp s m))) ->
  SetKey E G s m key t = Ok (n, s3) -> put s m key t n s3.
Proof.
  intros Td C B H. pose proof (td_wf _ _ _ Td) as W.
  assert (CL : forall x, sees (hp s m) x -> live s x) by (intros x X; apply (td_live _ _ _ Td); apply reach_child; auto).
  pose proof (own_okc s m W) as OC. unfold SetKey in H.
  destruct C as [T|T].
  - eapply put_obj; eauto; [apply tidy_good; auto|]. apply (td_keys _ _ _ Td); [constructor|auto].
  - specialize (B T). destruct (Z.eqb_spec (x_str2int E key (-1)) (-1)) as [Q|Q].
    + apply (put_reset s m key t (c_own (hp s m)) n s3); auto.
      * apply (td_live _ _ _ Td). constructor.
      * apply (good_5 s m W). auto.
      * unfold SetKeyCached in H |- *. rewrite T, Q in H. change (vt_eqb TArray TArray) with true in H.
        change (vt_eqb TArray TObject) with false in H. change (-1 =? -1) with true in H. cbn [andb negb] in H. cbv iota zeta in H.
        assert (RO : ReadOnly m = false) by (apply ReadOnly_ge; apply (good_5 s m W); auto).
        assert (C1 : c_dt (hp (Reset s m TObject) m) = TObject).
        { unfold Reset. rewrite RO. cbn [hp set_cell]. rewrite upd_same. apply dt_reset. }
        rewrite C1. change (vt_eqb TObject TArray) with false. change (vt_eqb TObject TObject) with true. cbn [andb].
        cbv iota zeta. exact H.
    + unfold SetKeyCached in H. rewrite T in H. change (vt_eqb TArray TArray) with true in H.
      assert (X : (x_str2int E key (-1) =? -1) = false) by (apply Z.eqb_neq; auto). cbv zeta in H. rewrite X in H. cbn [andb negb] in H.
      assert (H' : SetIndex G s m (x_str2int E key (-1)) t = (n, s3)) by (destruct (SetIndex G s m (x_str2int E key (-1)) t); apply ok_pair in H as [-> ->]; reflexivity).
      unfold SetIndex in H'.
      apply (put_arr s m key t (c_own (hp s m)) n s3); auto; [apply tidy_good_arr; auto|lia].
Qed.

(** The node created on the way is empty. *)
Lemma put_tidy s m key t n s3 : put s m key t n s3 -> clean (hp s3 n) t -> tidy s3 n /\ (forall x, reach (hp s3) n x -> x = n).
Proof.
  intros P C. assert (LF : forall x, reach (hp s3) n x -> x = n) by (intros x; apply reach_leaf; intros y; eapply clean_leaf; eauto).
  split; [|exact LF]. constructor.
  - apply (p_wf _ _ _ _ _ _ P).
  - intros x X. rewrite (LF x X). apply (p_new_live _ _ _ _ _ _ P).
  - intros x X _. rewrite (LF x X). destruct C as (_ & _ & U & K & _). unfold HeapCalls.pairs. rewrite U, K. constructor.
  - intros x y X S. rewrite (LF x X) in S. destruct (clean_leaf _ _ y C S).
Qed.

Lemma walk_reach_same s s' m : (forall x, reach (hp s) m x -> hp s' x = hp s x) ->
  forall p r, walk s' m p r -> walk s m p r.
Proof.
  intros F p r Wk. revert F. induction Wk; intros F;
    assert (Fl : hp s' l = hp s l) by (apply F; constructor);
    try (rewrite Fl in *); unfold HeapCalls.pairs in *; try (rewrite Fl in *).
  - constructor.
  - eapply walk_key; eauto. apply IHWk. intros y Y. apply F. eapply reach_trans; [apply reach_child|exact Y].
    unfold sees. rewrite H. apply (in_map snd) in H0. rewrite snd_unescape_keys in H0. exact H0.
  - eapply walk_nil_entry; eauto.
  - eapply walk_no_key; eauto.
  - eapply walk_elem; eauto. apply IHWk. intros y Y. apply F. eapply reach_trans; [apply reach_child|exact Y].
    unfold sees. rewrite H, H1. apply in_or_app; right; left; auto.
  - eapply walk_nil_elem; eauto.
  - eapply walk_no_elem; eauto.
  - apply walk_scalar; auto.
Qed.

Definition force (s : st) (cur ll la : ptr) (prev : bytes) (t : vtype) (paths : list bytes) : res (ptr * st) :=
  do (c, s1) <- force_loop E G s cur ll la prev paths;
  match c with None => Panic | Some cv => do (n, s2) <- SetKey E G s1 cv (List.last paths []) t; Ok (Some n, s2) end.

Lemma bind_ok' {A B} (m : res A) (f : A -> res B) b : bind m f = Ok b -> exists a, m = Ok a /\ f a = Ok b.
Proof. destruct m; cbn; intros H; try discriminate. eauto. Qed.

Lemma force_spec t : forall paths s m ll la prev r s', paths <> [] -> tidy s m ->
  (c_dt (hp s m) = TObject \/ c_dt (hp s m) = TArray) -> in_bounds E s m paths ->
  force s (Some m) ll la prev t paths = Ok (r, s') ->
  exists n, r = Some n /\ chain s' m paths n /\ c_dt (hp s' n) = t /\
    (forall x, live s x -> ~ reach (hp s) m x -> hp s' x = hp s x).
Proof.
  induction paths as [|key rest IH]; intros s m ll la prev r s' NE Td C IB H; [congruence|]. clear NE.
  pose proof (td_wf _ _ _ Td) as W.
  assert (Lm : live s m) by (apply (td_live _ _ _ Td); constructor).
  assert (Dm : c_dt (hp s m) = TObject -> distinct_keys same (pairs s m)) by (apply (td_keys _ _ _ Td); constructor).
  destruct rest as [|k2 rest].
  - (* last name *)
    unfold force in H. cbn [force_loop bind List.last] in H.
    apply bind_ok' in H as ((n & s2) & H & H2). injection H2 as <- <-.
    assert (P : put s m key t n s2).
    { apply put_any; auto. intros T. destruct (IB [] key [] m eq_refl (walk_end _ _ _) T) as [B1 B2].
      specialize (B2 eq_refl). split; auto. }
    exists n. split; [reflexivity|]. split; [econstructor; [apply (p_hop _ _ _ _ _ _ P)|constructor]|].
    split; [apply (p_dt _ _ _ _ _ _ P)|].
    intros x X R. apply (p_frame _ _ _ _ _ _ P); auto.
    + intros ->. apply R. constructor.
    + intros ->. destruct (p_origin _ _ _ _ _ _ P) as [O|O]; [contradiction|]. apply R, reach_child; auto.
  - (* a middle name *)
    pose proof (lookup_looked s m key Dm) as LK.
    pose proof (tr_ValueByName N N E s m key W (ok_of_live _ _ Lm)) as [TR _].
    pose proof (lookup_hop s m key) as LH. pose proof (hop_lookup s m key) as HL.
    unfold force in H. change (force_loop E G s (Some m) ll la prev (key :: k2 :: rest)) with
      (let ll' := match la with Some _ => la | None => ll end in
       let (cv, s1) := ValueByName E s m key in
       let low := match cv with Some x => vt_code (c_dt (hp s1 x)) <=? vt_code TArray | None => false end in
       if low then force_loop E G s1 cv ll' (Some m) key (k2 :: rest)
       else match c_dt (hp s1 m) with
            | TArray => let idx := x_str2int E key (-1) in
                if idx <? 0 then
                  do (n, s3) <- SetKey E G (Reset s1 m TObject) m key TObject;
                  force_loop E G s3 (Some n) ll' (Some m) key (k2 :: rest)
                else let (n, s3) := SetIndex G s1 m idx TObject in
                  force_loop E G s3 (Some n) ll' (Some m) key (k2 :: rest)
            | TObject =>
                do (n, s3) <- SetKey E G s1 m key TObject;
                force_loop E G s3 (Some n) ll' (Some m) key (k2 :: rest)
            | _ => if ReadOnly m then
                  match ll' with
                  | None => let (n, s2) := NewValue s1 TObject in force_loop E G s2 (Some n) ll' None key (k2 :: rest)
                  | Some l2 =>
                      do (lv', s2) <- SetKey E G s1 l2 prev TObject;
                      do (n, s3) <- SetKey E G s2 lv' key TObject;
                      force_loop E G s3 (Some n) ll' (Some lv') key (k2 :: rest)
                  end
                else do (n, s3) <- SetKey E G (Reset s1 m TObject) m key TObject;
                  force_loop E G s3 (Some n) ll' (Some m) key (k2 :: rest)
            end) in H.
    cbv zeta in H. destruct (ValueByName E s m key) as [cv s1]. cbn [fst snd] in *.
    assert (W1 : wf s1) by (apply TR).
    assert (Td1 : tidy s1 m) by (eapply looked_tidy; eauto).
    pose proof (reach_sees _ _ (looked_sees _ _ _ LK)) as RS.
    assert (T1 : c_dt (hp s1 m) = c_dt (hp s m)) by (apply (lk_dt _ _ _ LK)).
    assert (Lm1 : live s1 m) by (apply (lk_live _ _ _ LK); auto).
    set (ll' := match la with Some _ => la | None => ll end) in *. clearbody ll'.
    change (List.last (key :: k2 :: rest) []) with (List.last (k2 :: rest) []) in H.
    (* the middle node has been created empty *)
    assert (MADE : forall n s3, put s1 m key TObject n s3 -> clean (hp s3 n) TObject ->
       force s3 (Some n) ll' (Some m) key t (k2 :: rest) = Ok (r, s') ->
       exists n0, r = Some n0 /\ chain s' m (key :: k2 :: rest) n0 /\ c_dt (hp s' n0) = t /\
         (forall x, live s x -> ~ reach (hp s) m x -> hp s' x = hp s x)).
    { intros n s3 P CN H'. destruct (put_tidy _ _ _ _ _ _ P CN) as [Tn LF].
      assert (Dn : c_dt (hp s3 n) = TObject) by (apply (p_dt _ _ _ _ _ _ P)).
      assert (IBn : in_bounds E s3 n (k2 :: rest)).
      { intros p ky q m' Q Wk TA. exfalso.
        assert (m' = n).
        { destruct CN as (_ & _ & U & K & _ & _ & A). inversion Wk; subst; auto.
          - unfold HeapCalls.pairs in *. rewrite U, K in *. contradiction.
          - congruence. }
        subst m'. congruence. }
      destruct (IH s3 n ll' (Some m) key r s') as (n0 & Q & Ch & Dt & Fr); auto; [discriminate|].
      exists n0. split; [exact Q|].
      assert (Fm : hp s' m = hp s3 m).
      { apply Fr; [apply (p_live _ _ _ _ _ _ P); auto|]. intros X. apply LF in X. apply (p_neq _ _ _ _ _ _ P). auto. }
      split; [|split; [exact Dt|]].
      - econstructor; [|exact Ch]. eapply hop_same; [exact Fm|]. apply (p_hop _ _ _ _ _ _ P).
      - intros x X R.
        assert (Xm : x <> m) by (intros ->; apply R; constructor).
        assert (Xl : live s1 x) by (apply (lk_live _ _ _ LK); auto).
        assert (Xn : x <> n).
        { intros ->. destruct (p_origin _ _ _ _ _ _ P) as [O|O]; [contradiction|].
          apply R, RS, reach_child; auto. }
        rewrite Fr; [|apply (p_live _ _ _ _ _ _ P); auto|intros Y; apply LF in Y; auto].
        rewrite (p_frame _ _ _ _ _ _ P) by auto. apply (lk_frame _ _ _ LK); auto. }
    destruct (match cv with Some x => vt_code (c_dt (hp s1 x)) <=? vt_code TArray | None => false end) eqn:LOW.
    + (* an existing container *)
      destruct cv as [x|]; [|discriminate]. specialize (LH x Dm eq_refl). clear HL.
      assert (Sx : sees (hp s m) x) by (eapply hop_sees; eauto).
      assert (Rx : reach (hp s) m x) by (apply reach_child; auto).
      assert (Cx : c_dt (hp s1 x) = TObject \/ c_dt (hp s1 x) = TArray).
      { apply Z.leb_le in LOW. destruct (c_dt (hp s1 x)); cbn in LOW; auto; lia. }
      assert (Tx : tidy s1 x) by (apply (tidy_child s1 m); auto; apply RS; auto).
      assert (Fx : forall y, reach (hp s) x y -> hp s1 y = hp s y).
      { intros y Y. apply (lk_frame _ _ _ LK). intros ->. apply (td_acyc _ _ _ Td m x); auto. constructor. }
      assert (IBx : in_bounds E s1 x (k2 :: rest)).
      { intros p ky q m' Q Wk TA.
        assert (Wk0 : walk s x p (Some m')) by (eapply walk_reach_same; eauto).
        assert (Rm' : forall a b c, walk s a b c -> forall z, c = Some z -> reach (hp s) a z).
        { clear. intros a b c Wk. induction Wk; intros z Q; try discriminate.
          - injection Q as ->. constructor.
          - eapply reach_trans; [apply reach_child|apply IHWk; auto]. unfold sees. rewrite H.
            unfold HeapCalls.pairs in H0. apply (in_map snd) in H0. rewrite snd_unescape_keys in H0. exact H0.
          - eapply reach_trans; [apply reach_child|apply IHWk; auto]. unfold sees. rewrite H, H1. apply in_or_app; right; left; auto. }
        specialize (Rm' _ _ _ Wk0 m' eq_refl). rewrite (Fx m' Rm') in *.
        apply (IB (key :: p) ky q m'); auto.
        - rewrite Q. reflexivity.
        - eapply hop_walk; eauto. }
      destruct (IH s1 x ll' (Some m) key r s') as (n0 & Q & Ch & Dt & Fr); auto; [discriminate|].
      exists n0. split; [exact Q|].
      assert (Fm : hp s' m = hp s1 m).
      { apply Fr; auto. intros X. apply RS in X. apply (td_acyc _ _ _ Td m x); auto. constructor. }
      split; [|split; [exact Dt|]].
      * econstructor; [|exact Ch]. eapply hop_same; [exact Fm|]. eapply looked_hop; eauto.
      * intros y Y R.
        rewrite Fr; [|apply (lk_live _ _ _ LK); auto|].
        -- apply (lk_frame _ _ _ LK). intros ->. apply R. constructor.
        -- intros Z. apply R. apply RS in Z. eapply reach_trans; eauto.
    + (* not there, or not a container *)
      assert (NC : forall n, hop s1 m key n -> c_dt (hp s1 n) = TObject -> False).
      { intros n Hn Dn. assert (Hs : hop s m key n).
        { destruct Hn as [k T D I S|a b T Z A].
          - rewrite T1 in T. rewrite (lk_pairs _ _ _ LK T) in *. apply (hop_key s m key n k); auto.
          - rewrite T1 in T. rewrite (lk_arr _ _ _ LK) in A. apply (hop_elem s m key n a b); auto. }
        apply HL in Hs. subst cv. rewrite Dn in LOW. discriminate. }
      assert (CN : forall n s3, put s1 m key TObject n s3 -> clean (hp s3 n) TObject).
      { intros n s3 P. destruct (p_content _ _ _ _ _ _ P) as [X|[X1 X2]]; auto.
        exfalso. apply (NC n X1). rewrite <- X2. apply (p_dt _ _ _ _ _ _ P). }
      destruct C as [T|T]; rewrite T1, T in H.
      * unfold bind at 2 in H. destruct (SetKey E G s1 m key TObject) as [[n s3]|e| |] eqn:SK; try discriminate.
        assert (P : put s1 m key TObject n s3).
        { apply put_any; auto; [left; congruence|]. intros X. congruence. }
        apply (MADE n s3 P (CN n s3 P)). exact H.
      * destruct (IB [] key (k2 :: rest) m eq_refl (walk_end _ _ _) T) as [B1 _].
        destruct (x_str2int E key (-1) <? 0) eqn:B0.
        -- unfold bind at 2 in H. destruct (SetKey E G (Reset s1 m TObject) m key TObject) as [[n s3]|e| |] eqn:SK; try discriminate.
           destruct (put_reset s1 m key TObject (c_own (hp (Reset s1 m TObject) m)) n s3) as [P Cl]; auto.
           ++ apply (good_5 s1 m W1). rewrite T1. auto.
           ++ assert (Q : c_own (hp (Reset s1 m TObject) m) = c_own (hp s1 m)).
              { unfold Reset. destruct (ReadOnly m); auto. cbn [hp set_cell]. rewrite upd_same. apply own_reset. }
              rewrite Q. apply own_okc; auto.
           ++ apply (MADE n s3 P Cl). exact H.
        -- apply Z.ltb_ge in B0. destruct (SetIndex G s1 m (x_str2int E key (-1)) TObject) as [n s3] eqn:SI.
           assert (P : put s1 m key TObject n s3).
           { apply (put_arr s1 m key TObject (c_own (hp s1 m)) n s3).
             - apply tidy_good_arr; auto. congruence.
             - intros x X. apply (td_live _ _ _ Td1). apply reach_child; auto.
             - apply own_okc; auto.
             - rewrite (lk_arr _ _ _ LK). lia.
             - exact SI. }
           apply (MADE n s3 P (CN n s3 P)). exact H.
Qed.

(** C33 *)
Theorem force_path_found s l t paths r s' : paths <> [] -> tidy s l ->
  (c_dt (hp s l) = TObject \/ c_dt (hp s l) = TArray) -> in_bounds E s l paths ->
  ForcePath E G s l t paths = Ok (r, s') ->
  exists n, r = Some n /\ fst (ValueByPath E s' (Some l) paths) = Some n /\ c_dt (hp s' n) = t /\
    (forall x, live s x -> ~ reach (hp s) l x -> hp s' x = hp s x).
Proof.
  intros NE Td C IB H. destruct paths as [|k0 rest]; [congruence|].
  destruct (force_spec t (k0 :: rest) s l None None [] r s' NE Td C IB H) as (n & Q & Ch & Dt & Fr).
  exists n. split; [exact Q|]. split; [apply (chain_path (k0 :: rest) s' l n Ch)|]. auto.
Qed.
End Force.
