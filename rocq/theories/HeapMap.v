(** Objects as insertion-ordered maps. *)
From Verif Require Import Base Values Tactics HeapModel HeapSpec HeapBase ApiSpec.

Section KM.
Variable E : env.
Hypothesis EO : env_ok E.
Notation same := (key_match E).

Lemma same_refl a : same a a = true.
Proof. unfold key_match. rewrite beq_refl, orb_true_r. reflexivity. Qed.
Lemma same_sym a b : same a b = same b a.
Proof.
  assert (H : forall x y, same x y = true -> same y x = true).
  { unfold key_match. intros x y H. apply orb_true_iff in H as [H|H].
    - apply andb_true_iff in H as [-> H]. cbn [andb]. rewrite (fold_sym E EO _ _ H). reflexivity.
    - apply beq_eq in H as ->. rewrite beq_refl, orb_true_r. reflexivity. }
  destruct (same a b) eqn:Q.
  - symmetry; auto.
  - destruct (same b a) eqn:R; auto. apply H in R. congruence.
Qed.
Lemma same_trans a b c : same a b = true -> same b c = true -> same a c = true.
Proof.
  unfold key_match. intros H1 H2.
  apply orb_true_iff in H1 as [H1|H1]; [|apply beq_eq in H1 as ->; exact H2].
  apply orb_true_iff in H2 as [H2|H2]; [|apply beq_eq in H2 as <-; rewrite H1; reflexivity].
  apply andb_true_iff in H1 as [-> H1]. apply andb_true_iff in H2 as [_ H2].
  cbn [andb]. rewrite (fold_trans E EO _ _ _ H1 H2). reflexivity.
Qed.
Lemma same_cong a b c : same a b = true -> same a c = same b c.
Proof.
  intros H. destruct (same b c) eqn:Q.
  - eapply same_trans; eauto.
  - destruct (same a c) eqn:R; auto. rewrite same_sym in H. rewrite <- Q. symmetry. eapply same_trans; eauto.
Qed.

Section L.
Context {A : Type}.
Implicit Types m kvs : list (bytes * A).

Lemma find_key_some m name i : find_key E m name = Some i ->
  exists k x, nth_error m i = Some (k, x) /\ same k name = true.
Proof.
  revert i; induction m as [|[k x] m IH]; intros i H; [discriminate|]. cbn [find_key] in H.
  destruct (same k name) eqn:Q.
  - injection H as <-. exists k, x. auto.
  - destruct (find_key E m name) as [j|]; [|discriminate]. injection H as <-. apply IH. reflexivity.
Qed.
Lemma find_key_none m name : find_key E m name = None -> forall k x, In (k, x) m -> same k name = false.
Proof.
  induction m as [|[k x] m IH]; intros H k' x' []; cbn [find_key] in H; destruct (same k name) eqn:Q; try discriminate.
  - congruence.
  - destruct (find_key E m name); [discriminate|]. eauto.
Qed.
Lemma find_key_none' m name : (forall k x, In (k, x) m -> same k name = false) -> find_key E m name = None.
Proof.
  induction m as [|[k x] m IH]; intros H; cbn [find_key]; auto.
  rewrite (H k x) by (left; auto). rewrite IH; auto. intros; eapply H; right; eauto.
Qed.
Lemma find_key_uniq m name i k x : distinct_keys same m -> nth_error m i = Some (k, x) -> same k name = true ->
  find_key E m name = Some i.
Proof.
  intros D; revert i; induction D as [|[k0 x0] m H D IH]; intros i N S; [destruct i; discriminate|].
  cbn [find_key]. destruct i as [|i].
  - injection N as -> ->. rewrite S. reflexivity.
  - cbn [nth_error] in N. rewrite (IH _ N S).
    destruct (same k0 name) eqn:Q; auto.
    rewrite Forall_forall in H. apply nth_error_In in N. apply H in N. cbn [fst] in N.
    assert (same k0 k = true) by (rewrite (same_cong _ _ _ Q), same_sym; auto). congruence.
Qed.

(** The user-visible pairs of an object. *)
Notation view := (unescape_keys E).

Lemma index_view u kvs name r u' kvs' : distinct_keys same (view u kvs) ->
  index_by_name E u kvs name = (r, (u', kvs')) ->
  r = find_key E (view u kvs) name /\ view u' kvs' = view u kvs /\ (r = None -> u' = true).
Proof.
  intros D. unfold index_by_name. cbv zeta.
  assert (S : forall r u' kvs', (find_key E (view u kvs) name, (true, view u kvs)) = (r, (u', kvs')) ->
    r = find_key E (view u kvs) name /\ view u' kvs' = view u kvs /\ (r = None -> u' = true)).
  { intros ? ? ? H. injection H as <- <- <-. auto. }
  destruct (negb u && no_backslash name) eqn:Q; [|apply S].
  destruct (find_key E kvs name) as [i|] eqn:F; [|apply S].
  intros H. injection H as <- <- <-. split; [|split; [auto|discriminate]].
  apply andb_true_iff in Q as [Qu Qn]. destruct u; [discriminate|].
  apply find_key_some in F as (k & x & N & SM). symmetry.
  eapply find_key_uniq; [exact D| |exact SM].
  unfold unescape_keys. rewrite nth_error_map, N. cbn [option_map fst snd]. f_equal. f_equal.
  apply (unesc_plain E EO).
  unfold key_match in SM. apply orb_true_iff in SM as [SM|SM].
  - apply andb_true_iff in SM as [_ SM]. exact (fold_plain E EO _ _ SM Qn).
  - apply beq_eq in SM as ->. exact Qn.
Qed.

Lemma nth_set_nth_same (n : nat) (x : A) l : (n < List.length l)%nat -> nth_error (set_nth n x l) n = Some x.
Proof. revert n; induction l as [|y l IH]; intros [|n] H; simpl in *; try lia; auto. apply IH; lia. Qed.

Lemma view_set_val (u : bool) kvs i x : view u (set_val i x kvs) = set_val i x (view u kvs).
Proof.
  unfold unescape_keys. destruct u; auto. unfold set_val. rewrite nth_error_map.
  destruct (nth_error kvs i) as [[k y]|]; cbn [option_map fst snd]; auto.
  revert i; induction kvs as [|[k' y'] kvs IH]; intros [|i]; cbn [map set_nth]; auto. rewrite IH; auto.
Qed.
End L.

Lemma view_remove {A} (u : bool) (kvs : list (bytes * A)) i :
  unescape_keys E u (remove_at i kvs) = remove_at i (unescape_keys E u kvs).
Proof. unfold unescape_keys. destruct u; auto. apply map_remove_at. Qed.

(** ** Histories *)
Section H.
Context {A : Type}.
Implicit Types m : list (bytes * A).
Implicit Types h : list (event A).

Definition repr h m : Prop :=
  distinct_keys same m /\
  map fst m = key_order same h /\
  (forall k x, In (k, x) m -> last_set same h k = Some x) /\
  (forall name x, last_set same h name = Some x -> exists k, In (k, x) m /\ same k name = true).

Lemma repr_content h m : repr h m -> content same h = map (fun kv => (fst kv, Some (snd kv))) m.
Proof.
  intros (_ & O & V & _). unfold content. rewrite <- O, map_map. apply map_ext_in. intros [k x] I. cbn [fst snd].
  rewrite (V k x I). reflexivity.
Qed.
Lemma repr_count h m : repr h m -> List.length (key_order same h) = List.length m.
Proof. intros (_ & O & _). rewrite <- O. apply map_length. Qed.

Lemma last_set_cong h a b : same a b = true -> last_set same h a = last_set same h b.
Proof.
  intros S. induction h as [|[k x|k] h IH]; cbn [last_set]; auto;
    rewrite (same_sym k a), (same_sym k b), (same_cong _ _ k S), IH; reflexivity.
Qed.

Lemma repr_find h m name : repr h m ->
  match find_key E m name with
  | Some i => exists k x, nth_error m i = Some (k, x) /\ last_set same h name = Some x
  | None => last_set same h name = None
  end.
Proof.
  intros (D & O & V & C). destruct (find_key E m name) as [i|] eqn:F.
  - apply find_key_some in F as (k & x & N & S). exists k, x. split; auto.
    rewrite <- (last_set_cong h k name S). apply V. eapply nth_error_In; eauto.
  - destruct (last_set same h name) as [x|] eqn:L; auto. apply C in L as (k & I & S).
    rewrite (find_key_none m name F k x I) in S. discriminate.
Qed.

Lemma repr_nil : repr [] [].
Proof. split; [constructor|]. repeat split; intros; try contradiction; discriminate. Qed.

Lemma existsb_fst m name : existsb (fun k' => same k' name) (map fst m) = match find_key E m name with Some _ => true | None => false end.
Proof.
  induction m as [|[k x] m IH]; cbn [map existsb find_key fst]; auto. rewrite IH.
  destruct (same k name); cbn [orb]; auto. destruct (find_key E m name); auto.
Qed.

Lemma distinct_split m1 kv m2 : distinct_keys same (m1 ++ kv :: m2) ->
  (forall k x, In (k, x) (m1 ++ m2) -> same k (fst kv) = false) /\ distinct_keys same (m1 ++ m2).
Proof.
  unfold distinct_keys. intros D. induction m1 as [|[k0 x0] m1 IH]; cbn [app] in *.
  - inversion D as [|? ? H D']; subst. split; auto. intros k x I. rewrite Forall_forall in H.
    rewrite same_sym. apply (H _ I).
  - inversion D as [|? ? H D']; subst. destruct (IH D') as [H1 H2]. rewrite Forall_forall in H. split.
    + intros k x [I|I]; [|eapply H1; eauto]. injection I as <- <-. apply H. apply in_or_app; right; left; auto.
    + constructor; auto. apply Forall_forall. intros y Y. apply H.
      apply in_app_or in Y as [Y|Y]; apply in_or_app; [left|right; right]; auto.
Qed.

Lemma map_fst_set_val i x m : map fst (set_val i x m) = map fst m.
Proof.
  unfold set_val. destruct (nth_error m i) as [[k y]|] eqn:N; auto.
  revert i N; induction m as [|[k' y'] m IH]; intros [|i] N; cbn [set_nth map nth_error] in *; auto; try discriminate.
  - injection N as -> ->. reflexivity.
  - f_equal. apply IH; auto.
Qed.
Lemma set_val_split i x m k y : nth_error m i = Some (k, y) ->
  exists m1 m2, m = m1 ++ (k, y) :: m2 /\ List.length m1 = i /\ set_val i x m = m1 ++ (k, x) :: m2.
Proof.
  intros N. unfold set_val. rewrite N. revert i N; induction m as [|kv m IH]; intros [|i] N; cbn [set_nth nth_error] in *; try discriminate.
  - injection N as ->. exists [], m. auto.
  - destruct (IH _ N) as (m1 & m2 & -> & <- & ->). exists (kv :: m1), m2. auto.
Qed.

Lemma repr_set h m name x : repr h m ->
  repr (ESet name x :: h) (match find_key E m name with Some i => set_val i x m | None => m ++ [(name, x)] end).
Proof.
  intros R. pose proof (repr_find h m name R) as F. destruct R as (D & O & V & C).
  assert (EB : existsb (fun k' => same k' name) (key_order same h) = match find_key E m name with Some _ => true | None => false end)
    by (rewrite <- O; apply existsb_fst).
  unfold repr. cbn [key_order last_set]. rewrite EB.
  destruct (find_key E m name) as [i|] eqn:FK.
  - destruct F as (k & y & N & L). pose proof (find_key_some m name i FK) as (k' & y' & N' & S).
    assert (QQ : (k', y') = (k, y)) by congruence. injection QQ as -> ->.
    destruct (set_val_split i x m k y N) as (m1 & m2 & Q & Li & Q2).
    assert (FS : map fst (set_val i x m) = map fst m) by apply map_fst_set_val.
    rewrite FS, Q2. rewrite Q in D. destruct (distinct_split _ _ _ D) as [H1 H2]. cbn [fst] in H1.
    assert (SS : forall a, same name a = same k a) by (intros; symmetry; apply same_cong; auto).
    split; [|split; [|split]].
    + clear - D H2. unfold distinct_keys in *. induction m1 as [|z m1 IH]; cbn [app] in *.
      * inversion D; subst. constructor; auto.
      * inversion D as [|? ? HF D']; subst. inversion H2 as [|? ? HF2 D2]; subst. constructor; auto.
        rewrite Forall_forall in *. intros w W. apply in_app_or in W as [W|[W|W]].
        -- apply HF2. apply in_or_app; auto.
        -- subst. exact (HF (k, y) ltac:(apply in_or_app; right; left; auto)).
        -- apply HF2. apply in_or_app; auto.
    + exact O.
    + intros a b I. apply in_app_or in I. rewrite SS.
      assert (OTH : In (a, b) (m1 ++ m2) -> (if same k a then Some x else last_set same h a) = Some b).
      { intros J. pose proof (H1 a b J) as W. rewrite same_sym in W. rewrite W. apply V. rewrite Q.
        apply in_app_or in J as [J|J]; apply in_or_app; [left|right; right]; auto. }
      destruct I as [I|[I|I]]; [|injection I as <- <-; rewrite same_refl; reflexivity|];
        apply OTH; apply in_or_app; auto.
    + intros a b. rewrite SS. destruct (same k a) eqn:SA.
      * intros I; injection I as <-. exists k. split; auto. apply in_or_app; right; left; auto.
      * intros LL. apply C in LL as (k2 & I & S2). exists k2. split; auto.
        rewrite Q in I. apply in_app_or in I as [I|[I|I]]; [apply in_or_app; auto| |apply in_or_app; right; right; auto].
        injection I as <- <-. congruence.
  - pose proof (find_key_none m name FK) as NN. split; [|split; [|split]].
    + unfold distinct_keys in *. clear - D NN. induction D as [|[k y] m H D IH]; cbn [app].
      * constructor; constructor.
      * constructor.
        -- apply Forall_app. split; auto. constructor; auto. cbn [fst]. eapply NN. left; reflexivity.
        -- apply IH. intros; eapply NN; right; eauto.
    + rewrite map_app. cbn [map fst]. rewrite O. reflexivity.
    + intros a b I. apply in_app_or in I as [I|[I|[]]].
      * rewrite same_sym. rewrite (NN a b I). auto.
      * injection I as <- <-. rewrite same_refl. reflexivity.
    + intros a b. destruct (same name a) eqn:SA.
      * intros I; injection I as <-. exists name. split; auto. apply in_or_app; right; left; auto.
      * intros LL. apply C in LL as (k2 & I & S2). exists k2. split; auto. apply in_or_app; auto.
Qed.

Lemma remove_split i m kv : nth_error m i = Some kv ->
  exists m1 m2, m = m1 ++ kv :: m2 /\ List.length m1 = i /\ remove_at i m = m1 ++ m2.
Proof.
  revert i; induction m as [|kv' m IH]; intros [|i] N; cbn [remove_at nth_error] in *; try discriminate.
  - injection N as ->. exists [], m. auto.
  - destruct (IH _ N) as (m1 & m2 & -> & <- & ->). exists (kv' :: m1), m2. auto.
Qed.
Lemma filter_id {B} (f : B -> bool) l : (forall x, In x l -> f x = true) -> filter f l = l.
Proof.
  induction l as [|y l IH]; intros H; cbn [filter]; auto. rewrite (H y) by (left; auto). rewrite IH; auto.
  intros; apply H; right; auto.
Qed.

Lemma repr_del h m name : repr h m ->
  repr (EDel name :: h) (match find_key E m name with Some i => remove_at i m | None => m end).
Proof.
  intros R. pose proof (repr_find h m name R) as F. destruct R as (D & O & V & C).
  unfold repr. cbn [key_order last_set]. rewrite <- O.
  destruct (find_key E m name) as [i|] eqn:FK.
  - pose proof (find_key_some m name i FK) as (k & y & N & S).
    destruct (remove_split i m (k, y) N) as (m1 & m2 & Q & Li & Q2). rewrite Q2.
    rewrite Q in D. destruct (distinct_split _ _ _ D) as [H1 H2]. cbn [fst] in H1.
    assert (SS : forall a, same name a = same k a) by (intros; symmetry; apply same_cong; auto).
    assert (NN : forall a b, In (a, b) (m1 ++ m2) -> same a name = false).
    { intros a b I. rewrite same_sym, SS, same_sym. eauto. }
    split; [|split; [|split]]; auto.
    + rewrite Q, !map_app. cbn [map fst]. rewrite filter_app. cbn [filter]. rewrite S. cbn [negb].
      rewrite !filter_id; auto; intros a I; apply in_map_iff in I as ((a' & b) & <- & I); cbn [fst];
        rewrite (NN a' b); auto; apply in_or_app; auto.
    + intros a b I. rewrite same_sym, (NN a b I). apply V. rewrite Q.
      apply in_app_or in I as [J|J]; apply in_or_app; [left|right; right]; auto.
    + intros a b. rewrite SS. destruct (same k a) eqn:SA; [discriminate|]. intros L.
      apply C in L as (k2 & I & S2). exists k2. split; auto.
      rewrite Q in I. apply in_app_or in I as [I|[I|I]]; [apply in_or_app; auto| |apply in_or_app; auto].
      injection I as <- <-. congruence.
  - pose proof (find_key_none m name FK) as NN. split; [|split; [|split]]; auto.
    + rewrite filter_id; auto. intros a I; apply in_map_iff in I as ((a' & b) & <- & I); cbn [fst].
      rewrite (NN a' b I). reflexivity.
    + intros a b I. rewrite same_sym, (NN a b I). auto.
    + intros a b. destruct (same name a) eqn:SA; [discriminate|]. auto.
Qed.

Lemma repr_init m : distinct_keys same m -> repr (as_history m) m.
Proof.
  induction m as [|[k x] m IH] using rev_ind; intros D; [apply repr_nil|].
  unfold as_history. rewrite map_app, rev_app_distr. cbn [map rev app fst snd].
  destruct (distinct_split _ _ _ D) as [H1 H2]. rewrite app_nil_r in *. cbn [fst] in H1.
  pose proof (repr_set _ _ k x (IH H2)) as R. rewrite find_key_none' in R; auto.
Qed.
End H.
End KM.
