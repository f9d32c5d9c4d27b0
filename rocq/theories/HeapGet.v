(** What [getValue] hands out and what it leaves alone. *)
From Verif Require Import Base Values Tactics HeapModel HeapSpec HeapBase.

(** No keys, elements, string, binary or extension type; type [t]. *)
Definition clean (c : cell) (t : vtype) : Prop :=
  c_dt c = t /\ c_ext c = 0 /\ c_unesc c = false /\ c_kvs c = [] /\ c_str c = [] /\ c_bin c = [] /\ c_arr c = [].

Lemma clean_reset c t : clean (reset_cell c t) t.
Proof.
  unfold clean. rewrite dt_reset, ext_reset, unesc_reset, kvs_reset, str_reset, bin_reset, arr_reset. repeat split.
Qed.
Lemma clean_own c t o : clean c t -> clean (w_own c o) t.
Proof. intros H; exact H. Qed.

Section Get.
Variable G : nat -> nat.

Lemma live_lt s l : live s l -> (l < nx s)%nat. Proof. intros H; apply H. Qed.

Lemma nth_skipn {A} (l : list A) n d : (n < List.length l)%nat -> In (nth n l d) (skipn n l).
Proof.
  revert n; induction l as [|x l IH]; intros [|n] H; simpl in *; try lia; auto. apply IH; lia.
Qed.
Lemma In_skipn {A} (l : list A) n y : In y (skipn n l) -> In y l.
Proof. intros H. rewrite <- (firstn_skipn n l). apply in_or_app; auto. Qed.
Lemma skipn_S_In {A} (l : list A) n y : In y (skipn (S n) l) -> In y (skipn n l).
Proof.
  revert n; induction l as [|x l IH]; intros [|n] H; simpl in *; auto.
Qed.
Lemma not_in_skipn_S {A} (l : list A) n d : NoDup l -> (n < List.length l)%nat -> ~ In (nth n l d) (skipn (S n) l).
Proof.
  revert n; induction l as [|x l IH]; intros [|n] N H; simpl in *; try lia; inversion N; subst; auto.
  apply IH; auto; lia.
Qed.

Record got (s : st) (t : vtype) (r : nat) (s' : st) : Prop := {
  g_clean : clean (hp s' r) t;
  g_new : ~ live s r;
  g_5 : (5 <= r)%nat;
  g_live : live s' r;
  g_nx : (nx s <= nx s')%nat;
  g_nc : (nc s <= nc s')%nat;
  g_frame : forall x, (x < nx s)%nat -> x <> r -> hp s' x = hp s x;
  g_lives : forall x, live s x -> live s' x;
  g_zero : (nx s <= r)%nat -> c_sv (hp s' r) = 0 }.

Lemma got_frame s t r s' x : got s t r s' -> live s x -> hp s' x = hp s x /\ x <> r.
Proof.
  intros [? N ? ? ? ? F ? ?] L. assert (x <> r) by (intros ->; auto). split; auto. apply F; auto. apply L.
Qed.

Lemma getValue_got_none s t : wf s -> got s t (fst (getValue G s None t)) (snd (getValue G s None t)).
Proof.
  intros I. unfold getValue. cbn [fst snd]. pose proof (i_nx _ _ _ I) as N5.
  constructor; cbn [hp nx nc cs]; try lia; try (rewrite upd_same; cbn; auto; fail).
  - rewrite upd_same. repeat split; auto.
  - intros [L _]. lia.
  - split; cbn [nx nc cs]; [lia|]. intros k K. destruct (Nat.eq_dec k (nc s)) as [->|Q].
    + rewrite upd_same. cbn [ca_len ca_slots]. change (skipn 1 (seq (nx s) 8)) with (seq (S (nx s)) 7).
      intros X. apply In_seq_ge in X. lia.
    + rewrite upd_other by auto. intros X.
      assert (K' : (k < nc s)%nat) by lia. destruct (i_cache _ _ _ I k K') as (_ & _ & _ & D).
      rewrite Forall_forall in D. apply In_skipn in X. apply D in X. lia.
  - intros x X Q. rewrite upd_other by lia. reflexivity.
  - intros x [X1 X2]. split; cbn [nx nc cs]; [lia|]. intros k K. destruct (Nat.eq_dec k (nc s)) as [->|Q].
    + rewrite upd_same. cbn [ca_len ca_slots]. change (skipn 1 (seq (nx s) 8)) with (seq (S (nx s)) 7).
      intros X. apply In_seq_ge in X. lia.
    + rewrite upd_other by auto. apply X2. lia.
Qed.

Lemma room_spec s k : wf s -> (k < nc s)%nat ->
  let s1 := cache_room G s k in
  let r := nth (ca_len (cs s k)) (ca_slots (cs s1 k)) 0%nat in
  wf s1 /\ nc s1 = nc s /\ (nx s <= nx s1)%nat /\ (5 <= r < nx s1)%nat /\ ~ live s r /\ live s1 r /\
  (forall x, (x < nx s)%nat -> hp s1 x = hp s x) /\ (forall x, live s x -> live s1 x) /\
  ((nx s <= r)%nat -> hp s1 r = zero_cell).
Proof.
  intros I K. cbv zeta.
  destruct (i_cache _ _ _ I k K) as (A & B & C & D).
  assert (W : wf (cache_room G s k)).
  { unfold cache_room. destruct (ca_len (cs s k) <? List.length (ca_slots (cs s k)))%nat eqn:L.
    - apply Nat.ltb_lt in L. apply tr_set_cache; auto.
    - pose proof (tr_getValue_some none_set none_set G s k TInt I K (fun x => x)) as H. cbv zeta in H.
      (* the room is the first stage of getValue; reuse its pieces *)
      apply Nat.ltb_ge in L.
      set (c := cs s k) in *.
      set (n := S (ca_len c + G (ca_len c))).
      destruct (new_slots_ok none_set none_set s n (nx s) k I eq_refl) as [F _].
      set (h := copy_cells (hp s) (firstn (ca_len c) (ca_slots c)) (nx s) (hp s)).
      assert (T1 : tr none_set none_set s (mkSt h (nx s + n) (cs s) (nc s) (pl s))).
      { assert (Y0 : forall l, ((nx s <=? l)%nat && (l <? nx s + List.length (firstn (ca_len c) (ca_slots c)))%nat) = true ->
          ok_loc none_set s (nth (l - nx s) (firstn (ca_len c) (ca_slots c)) 0%nat)).
        { intros l X. apply andb_true_iff in X as [X1 X2]. apply Nat.ltb_lt in X2. apply Nat.leb_le in X1.
          set (y := nth (l - nx s) (firstn (ca_len c) (ca_slots c)) 0%nat).
          assert (Y : In y (ca_slots c)).
          { assert (Y : In y (firstn (ca_len c) (ca_slots c))) by (apply nth_In; lia).
            rewrite <- (firstn_skipn (ca_len c)). apply in_or_app. auto. }
          split; [rewrite Forall_forall in D; apply D in Y; lia|intros []]. }
        apply tr_alloc; auto; unfold h.
        - intros l Q. rewrite copy_cells_spec.
          replace (nx s <=? l)%nat with false by (symmetry; apply Nat.leb_gt; auto). reflexivity.
        - intros l Q. rewrite copy_cells_spec.
          replace (l <? nx s + Datatypes.length (firstn (ca_len c) (ca_slots c)))%nat with false.
          + rewrite andb_false_r. apply (i_fresh _ _ _ I). lia.
          + symmetry. apply Nat.ltb_ge. rewrite firstn_length. unfold n in Q. lia.
        - intros l Q x. rewrite copy_cells_spec.
          destruct ((nx s <=? l)%nat && _) eqn:X.
          + intros Z. apply (cell_ok_at none_set none_set s _ I (Y0 l X)); auto.
          + rewrite (i_fresh _ _ _ I) by lia. intros Z; exfalso; eapply child_zero; eauto.
        - intros l Q. rewrite copy_cells_spec.
          destruct ((nx s <=? l)%nat && _) eqn:X.
          + apply (cell_ok_at none_set none_set s _ I (Y0 l X)); auto.
          + rewrite (i_fresh _ _ _ I) by lia. intros z Z; discriminate. }
      apply (tr_new_slots none_set none_set (mkSt h (nx s + n) (cs s) (nc s) (pl s)) k
        (mkCache (ca_root c) (seq (nx s) n) (S (ca_len c))) (nc s)); simpl nx; simpl nc; simpl cs;
        cbn [ca_len ca_slots]; auto.
      + apply T1.
      + lia.
      + rewrite seq_length. unfold n. lia.
      + unfold n. discriminate.
      + apply seq_NoDup. }
  unfold cache_room in *. destruct (ca_len (cs s k) <? List.length (ca_slots (cs s k)))%nat eqn:L.
  - apply Nat.ltb_lt in L. cbn [nc nx hp cs set_cache] in *. rewrite !upd_same. cbn [ca_slots].
    set (r := nth (ca_len (cs s k)) (ca_slots (cs s k)) 0%nat).
    assert (Rin : In r (skipn (ca_len (cs s k)) (ca_slots (cs s k)))) by (apply nth_skipn; auto).
    assert (Rin' : In r (ca_slots (cs s k))) by (apply nth_In; auto).
    rewrite Forall_forall in D. pose proof (D r Rin') as R5.
    refine (conj W (conj eq_refl (conj (le_n _) (conj R5 (conj _ (conj _ (conj _ (conj _ _)))))))); auto.
    + intros [_ X]. apply (X k K Rin).
    + split; [cbn [nx set_cache]; lia|]. cbn [set_cache cs nc]. intros k0 K0.
      destruct (Nat.eq_dec k0 k) as [->|Q].
      * rewrite upd_same. cbn [ca_len ca_slots]. apply not_in_skipn_S; auto.
      * rewrite upd_other by auto. intros X. apply Q. eapply (i_disj _ _ _ I k0 k r); auto.
        eapply In_skipn; eauto.
    + intros x [H1 H2]. split; [exact H1|]. cbn [set_cache cs nc]. intros k0 K0.
      destruct (Nat.eq_dec k0 k) as [->|Q].
      * rewrite upd_same. cbn [ca_len ca_slots]. intros X. apply skipn_S_In in X. apply H2 in X; auto.
      * rewrite upd_other by auto. apply H2; auto.
    + intros; lia.
  - apply Nat.ltb_ge in L. cbn [nc nx hp cs set_cache] in *. rewrite !upd_same. cbn [ca_slots].
    set (c := cs s k) in *.
    set (n := S (ca_len c + G (ca_len c))) in *.
    assert (R : nth (ca_len c) (seq (nx s) n) 0%nat = (nx s + ca_len c)%nat) by (apply seq_nth; unfold n; lia).
    rewrite R. pose proof (i_nx _ _ _ I) as N5.
    assert (SK : forall x, In x (skipn (S (ca_len c)) (seq (nx s) n)) -> (nx s + S (ca_len c) <= x)%nat).
    { intros x X. replace n with (S (ca_len c) + (n - S (ca_len c)))%nat in X by (unfold n; lia).
      rewrite seq_app, skipn_app, seq_length, Nat.sub_diag in X.
      rewrite skipn_all2 in X by (rewrite seq_length; lia). cbn [app] in X. rewrite skipn_O in X.
      apply In_seq_ge in X. lia. }
    refine (conj W (conj eq_refl (conj _ (conj _ (conj _ (conj _ (conj _ (conj _ _)))))))); try lia.
    + intros [X _]. lia.
    + split; [cbn [nx]; unfold n; lia|]. cbn [cs nc]. intros k0 K0.
      destruct (Nat.eq_dec k0 k) as [->|Q].
      * rewrite upd_same. cbn [ca_len ca_slots]. intros X. apply SK in X. lia.
      * rewrite upd_other by auto. intros X.
        destruct (i_cache _ _ _ I k0 K0) as (_ & _ & _ & D0). rewrite Forall_forall in D0.
        apply In_skipn in X. apply D0 in X. lia.
    + intros x X. rewrite copy_cells_spec.
      replace (nx s <=? x)%nat with false by (symmetry; apply Nat.leb_gt; auto). reflexivity.
    + intros x [H1 H2]. split; [cbn [nx]; lia|]. cbn [cs nc]. intros k0 K0.
      destruct (Nat.eq_dec k0 k) as [->|Q].
      * rewrite upd_same. cbn [ca_len ca_slots]. intros X. apply SK in X. lia.
      * rewrite upd_other by auto. apply H2; auto.
    + intros _. rewrite copy_cells_spec. rewrite firstn_length.
      replace (nx s + ca_len c <? _)%nat with false by (symmetry; apply Nat.ltb_ge; lia).
      rewrite andb_false_r. apply (i_fresh _ _ _ I). lia.
Qed.

Lemma live_set_cell s l c x : live s x -> live (set_cell s l c) x.
Proof. intros H; exact H. Qed.

Lemma getValue_got_some s k t : wf s -> (k < nc s)%nat ->
  got s t (fst (getValue G s (Some k) t)) (snd (getValue G s (Some k) t)).
Proof.
  intros I K. unfold getValue. pose proof (room_spec s k I K) as H. cbv zeta in H.
  set (s1 := cache_room G s k) in *.
  set (r := nth (ca_len (cs s k)) (ca_slots (cs s1 k)) 0%nat) in *.
  clearbody s1 r. destruct H as (W & Hnc & Hnx & R5 & NL & L1 & F & LS & Z).
  assert (RO : ReadOnly r = false) by (apply ReadOnly_ge; lia).
  assert (RS : Reset s1 r t = set_cell s1 r (reset_cell (hp s1 r) t)) by (unfold Reset; rewrite RO; reflexivity).
  rewrite RS. set (s2 := set_cell s1 r (reset_cell (hp s1 r) t)).
  assert (G2 : got s t r s2).
  { constructor; auto; try lia.
    - unfold s2; cbn [hp set_cell]. rewrite upd_same. apply clean_reset.
    - cbn [s2 set_cell nc]. lia.
    - intros x X Q. unfold s2; cbn [hp set_cell]. rewrite upd_other by auto. auto.
    - intros Q. unfold s2; cbn [hp set_cell]. rewrite upd_same, sv_reset, (Z Q). reflexivity. }
  destruct (ca_root (cs s k)); cbn [fst snd]; [|exact G2].
  set (s3 := set_cache s2 k (mkCache false (ca_slots (cs s2 k)) (ca_len (cs s2 k)))).
  assert (LV : forall x, live s2 x -> live s3 x).
  { intros x [X Y]. split; auto. intros k0 K0. unfold s3. cbn [cs set_cache]. destruct (Nat.eq_dec k0 k) as [->|Q].
    - rewrite upd_same. cbn [ca_len ca_slots]. apply Y; auto.
    - rewrite upd_other by auto. apply Y; auto. }
  destruct G2 as [C N L5 LR X1 X2 FR LL ZZ].
  constructor; auto.
  - unfold s3. cbn [hp set_cell set_cache]. rewrite upd_same. apply clean_own. exact C.
  - apply live_set_cell. auto.
  - intros x X Q. unfold s3. cbn [hp set_cell set_cache]. rewrite upd_other by auto. apply FR; auto.
  - intros x X. apply live_set_cell. auto.
  - intros Q. unfold s3. cbn [hp set_cell set_cache]. rewrite upd_same. cbn [c_sv w_own]. apply ZZ; auto.
Qed.

Lemma getValue_got s c t : wf s -> ok_cache none_set s c ->
  got s t (fst (getValue G s c t)) (snd (getValue G s c t)).
Proof.
  intros I O. destruct c as [k|].
  - apply getValue_got_some; auto. apply (O k eq_refl).
  - apply getValue_got_none; auto.
Qed.

Lemma own_valid s l k : wf s -> c_own (hp s l) = Some k -> (k < nc s)%nat.
Proof.
  intros I O. destruct (Nat.lt_ge_cases l (nx s)) as [L|L].
  - eapply (i_cell _ _ _ I l L); eauto.
  - rewrite (i_fresh _ _ _ I l L) in O. discriminate.
Qed.
Lemma own_okc s l : wf s -> ok_cache none_set s (c_own (hp s l)).
Proof. intros I k O. split; [eapply own_valid; eauto|intros []]. Qed.
End Get.
