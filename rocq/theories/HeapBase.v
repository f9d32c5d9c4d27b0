(** Preservation of the state invariant by the primitive heap operations. *)
From Verif Require Import Base Values Tactics HeapModel HeapSpec.

Lemma upd_same {A} (f : nat -> A) l x : upd f l x l = x.
Proof. unfold upd; rewrite Nat.eqb_refl; reflexivity. Qed.
Lemma upd_other {A} (f : nat -> A) l x l' : l' <> l -> upd f l x l' = f l'.
Proof. unfold upd; intros H; apply Nat.eqb_neq in H; rewrite H; reflexivity. Qed.

Lemma vt_eqb_eq a b : vt_eqb a b = true <-> a = b.
Proof. split; [destruct a, b; (reflexivity || (intros H; discriminate H))|intros ->; destruct b; reflexivity]. Qed.
Lemma vt_eqb_refl a : vt_eqb a a = true.
Proof. apply vt_eqb_eq; reflexivity. Qed.
Lemma vt_eqb_neq a b : vt_eqb a b = false <-> a <> b.
Proof.
  split; intros H.
  - intros ->. rewrite vt_eqb_refl in H. discriminate.
  - destruct (vt_eqb a b) eqn:Q; auto. apply vt_eqb_eq in Q. contradiction.
Qed.

Lemma ReadOnly_lt l : ReadOnly l = true <-> (l < 5)%nat.
Proof. unfold ReadOnly. apply Nat.ltb_lt. Qed.
Lemma ReadOnly_ge l : ReadOnly l = false <-> (5 <= l)%nat.
Proof. unfold ReadOnly. apply Nat.ltb_ge. Qed.

Lemma child_obj c u kvs sp x : child (w_obj c u kvs sp) x <-> In (Some x) (map snd kvs) \/ In (Some x) (c_arr c).
Proof. reflexivity. Qed.

Lemma no_child_reset c t x : ~ child (reset_cell c t) x.
Proof. unfold child. destruct t; simpl; tauto. Qed.
Lemma own_reset c t : c_own (reset_cell c t) = c_own c.
Proof. destruct t; reflexivity. Qed.
Lemma dt_reset c t : c_dt (reset_cell c t) = t.
Proof. destruct t; reflexivity. Qed.
Lemma kvs_reset c t : c_kvs (reset_cell c t) = [].
Proof. destruct t; reflexivity. Qed.
Lemma arr_reset c t : c_arr (reset_cell c t) = [].
Proof. destruct t; reflexivity. Qed.
Lemma sv_reset c t : c_sv (reset_cell c t) = c_sv c.
Proof. destruct t; reflexivity. Qed.
Lemma unesc_reset c t : c_unesc (reset_cell c t) = false.
Proof. destruct t; reflexivity. Qed.
Lemma str_reset c t : c_str (reset_cell c t) = [].
Proof. destruct t; reflexivity. Qed.
Lemma bin_reset c t : c_bin (reset_cell c t) = [].
Proof. destruct t; reflexivity. Qed.
Lemma ext_reset c t : c_ext (reset_cell c t) = 0.
Proof. destruct t; reflexivity. Qed.

Lemma In_set_nth {A} i (x y : A) l : In y (set_nth i x l) -> y = x \/ In y l.
Proof.
  revert i; induction l as [|a l IH]; intros [|i]; simpl; auto.
  - intros [H|H]; auto.
  - intros [H|H]; auto. apply IH in H. tauto.
Qed.
Lemma In_remove_at {A} i (y : A) l : In y (remove_at i l) -> In y l.
Proof. revert i; induction l as [|a l IH]; intros [|i]; simpl; auto. intros [H|H]; auto. right; eauto. Qed.
Lemma map_set_nth {A B} (f : A -> B) i x l : map f (set_nth i x l) = set_nth i (f x) (map f l).
Proof. revert i; induction l as [|a l IH]; intros [|i]; simpl; auto. f_equal; auto. Qed.
Lemma map_remove_at {A B} (f : A -> B) i l : map f (remove_at i l) = remove_at i (map f l).
Proof. revert i; induction l as [|a l IH]; intros [|i]; simpl; auto. f_equal; auto. Qed.
Lemma In_snd_set_val {A} i (x y : A) kvs :
  In y (map snd (set_val i x kvs)) -> y = x \/ In y (map snd kvs).
Proof.
  unfold set_val. destruct (nth_error kvs i) as [[k z]|] eqn:H; auto.
  rewrite map_set_nth. apply In_set_nth.
Qed.
Lemma snd_unescape_keys {A} E u (kvs : list (bytes * A)) :
  map snd (unescape_keys E u kvs) = map snd kvs.
Proof. unfold unescape_keys. destruct u; auto. rewrite map_map. apply map_ext. intros []; auto. Qed.
Lemma snd_index_by_name {A} E u (kvs : list (bytes * A)) name :
  map snd (snd (snd (index_by_name E u kvs name))) = map snd kvs.
Proof.
  unfold index_by_name. destruct (negb u && no_backslash name).
  - destruct (find_key E kvs name); simpl; auto. apply snd_unescape_keys.
  - simpl. apply snd_unescape_keys.
Qed.

Section Prim.
Variables P PC : nat_set.

Definition ok_loc (s : st) (l : nat) : Prop := (l < nx s)%nat /\ ~ P l.
Definition ok_ptr (s : st) (p : ptr) : Prop := forall l, p = Some l -> ok_loc s l.
Definition ok_cache (s : st) (c : option nat) : Prop :=
  forall k, c = Some k -> (k < nc s)%nat /\ ~ PC k.

(** A transition that keeps the invariant and the protected part. *)
Definition tr (s s' : st) : Prop := inv P PC s' /\ keeps P PC s s'.

Lemma keeps_refl s : keeps P PC s s.
Proof. unfold keeps; auto. Qed.
Lemma keeps_trans s1 s2 s3 : keeps P PC s1 s2 -> keeps P PC s2 s3 -> keeps P PC s1 s3.
Proof.
  intros (A1 & A2 & A3 & A4) (B1 & B2 & B3 & B4). unfold keeps; repeat split; try lia.
  - intros l H. rewrite B3; auto.
  - intros k H. rewrite B4; auto.
Qed.
Lemma tr_refl s : inv P PC s -> tr s s.
Proof. split; auto using keeps_refl. Qed.
Lemma tr_trans s1 s2 s3 : tr s1 s2 -> tr s2 s3 -> tr s1 s3.
Proof. intros [_ A] [I B]; split; eauto using keeps_trans. Qed.
Lemma ok_loc_tr s s' l : tr s s' -> ok_loc s l -> ok_loc s' l.
Proof. intros [_ (A & _)] [B C]; split; auto; lia. Qed.
Lemma ok_ptr_tr s s' p : tr s s' -> ok_ptr s p -> ok_ptr s' p.
Proof. intros T H l Q. eapply ok_loc_tr; eauto. Qed.
Lemma ok_cache_tr s s' c : tr s s' -> ok_cache s c -> ok_cache s' c.
Proof. intros [_ (_ & A & _)] H k Q. destruct (H k Q). split; auto; lia. Qed.
Lemma ok_cache_none s : ok_cache s None.
Proof. intros k H; discriminate. Qed.
Lemma ok_ptr_none s : ok_ptr s None.
Proof. intros k H; discriminate. Qed.
Lemma ok_ptr_some s l : ok_ptr s (Some l) <-> ok_loc s l.
Proof. split; intros H; [apply H; auto|intros l' Q; injection Q as <-; auto]. Qed.

Lemma const_ok s l : inv P PC s -> (l < 5)%nat -> ok_loc s l.
Proof. intros I H; split; [pose proof (i_nx _ _ _ I); lia|]. intros Q. apply (i_P _ _ _ I) in Q. lia. Qed.

(** What a cell written by unprotected code may hold. *)
Definition ok_cell (s : st) (c : cell) : Prop :=
  (forall x, child c x -> ok_loc s x) /\ ok_cache s (c_own c).

Lemma cell_ok_at s l : inv P PC s -> ok_loc s l -> ok_cell s (hp s l).
Proof.
  intros I [H1 H2]. destruct (i_cell _ _ _ I l H1) as [V1 V2], (i_sep _ _ _ I l H2) as [S1 S2].
  split; [intros x Q; split; auto|]. intros k Q; auto.
Qed.

Lemma tr_set_cell s l c :
  inv P PC s -> ok_loc s l -> ok_cell s c -> ((l < 5)%nat -> c_dt c = c_dt (hp s l)) ->
  tr s (set_cell s l c).
Proof.
  intros I [H1 H2] [C1 C2] D.
  split.
  - destruct I as [Inx Iconst Ifresh Icell Isep Icache Idisj Ipool IP IPC Islots]. constructor; simpl; auto.
    + intros l' Q. destruct (Nat.eq_dec l' l) as [->|N].
      * rewrite upd_same, D; auto.
      * rewrite upd_other; auto.
    + intros l' Q. rewrite upd_other by lia. auto.
    + intros l' Q. destruct (Nat.eq_dec l' l) as [->|N].
      * rewrite upd_same. split; [intros x X; apply (C1 x X)|intros k X; apply (C2 k X)].
      * rewrite upd_other by auto. apply Icell; auto.
    + intros l' Q. destruct (Nat.eq_dec l' l) as [->|N].
      * rewrite upd_same. split; [intros x X; apply (C1 x X)|intros k X; apply (C2 k X)].
      * rewrite upd_other by auto. apply Isep; auto.
  - unfold keeps; simpl; repeat split; auto.
    intros l' Q. rewrite upd_other; auto. intros ->. contradiction.
Qed.

Lemma tr_Reset s l t : inv P PC s -> ok_loc s l -> tr s (Reset s l t).
Proof.
  intros I H. unfold Reset. destruct (ReadOnly l) eqn:R; [apply tr_refl; auto|].
  apply ReadOnly_ge in R. apply tr_set_cell; auto; [|lia].
  split; [intros x Q; exfalso; eapply no_child_reset; eauto|].
  rewrite own_reset. apply cell_ok_at; auto.
Qed.

Lemma tr_set_cache s k c :
  inv P PC s -> (k < nc s)%nat -> ~ PC k -> ca_slots c = ca_slots (cs s k) ->
  (ca_len c <= List.length (ca_slots c))%nat -> tr s (set_cache s k c).
Proof.
  intros I H1 H2 S L. split.
  - destruct I as [Inx Iconst Ifresh Icell Isep Icache Idisj Ipool IP IPC Islots]. constructor; simpl; auto.
    + intros k' Q. destruct (Nat.eq_dec k' k) as [->|N].
      * rewrite upd_same. destruct (Icache k Q) as (A & B & C & D).
        unfold cache_ok. rewrite S in *. auto.
      * rewrite upd_other by auto. apply Icache; auto.
    + intros k1 k2 l Q1 Q2. unfold upd.
      destruct (k1 =? k)%nat eqn:E1, (k2 =? k)%nat eqn:E2; rewrite ?S;
        try apply Nat.eqb_eq in E1; try apply Nat.eqb_eq in E2; subst; eauto.
    + intros k1 l Q1 Q2. unfold upd.
      destruct (k1 =? k)%nat eqn:E1; rewrite ?S; try apply Nat.eqb_eq in E1; subst; eauto.
  - unfold keeps; simpl; repeat split; auto.
    intros k' Q. rewrite upd_other; auto. intros ->. contradiction.
Qed.

Lemma In_seq_ge a n l : In l (seq a n) -> (a <= l < a + n)%nat.
Proof. intros H; apply in_seq in H; lia. Qed.

Lemma child_zero x : ~ child zero_cell x.
Proof. unfold child; simpl; tauto. Qed.

(** Allocation of fresh cells and possibly a new cache over them. *)
Lemma valid_cell_mono s s' c : (nx s <= nx s')%nat -> (nc s <= nc s')%nat -> valid_cell s c -> valid_cell s' c.
Proof. intros H1 H2 [A B]; split; intros x Q; [apply A in Q|apply B in Q]; lia. Qed.

(** Rewriting cells at or above [nx s] and growing the address space. *)
Lemma tr_alloc s h n :
  inv P PC s ->
  (forall l, (l < nx s)%nat -> h l = hp s l) ->
  (forall l, (nx s + n <= l)%nat -> h l = zero_cell) ->
  (forall l, (nx s <= l < nx s + n)%nat -> forall x, child (h l) x -> ok_loc s x) ->
  (forall l, (nx s <= l < nx s + n)%nat -> ok_cache s (c_own (h l))) ->
  tr s (mkSt h (nx s + n) (cs s) (nc s) (pl s)).
Proof.
  intros I Hold Hfresh Hch Hown. pose proof I as I'.
  split.
  - destruct I as [Inx Iconst Ifresh Icell Isep Icache Idisj Ipool IP IPC Islots]. constructor; simpl.
    + lia.
    + intros l Q. rewrite Hold by lia. auto.
    + intros l Q. apply Hfresh. lia.
    + intros l Q. destruct (Nat.lt_ge_cases l (nx s)) as [L|L].
      * rewrite Hold by auto. eapply valid_cell_mono; [| |apply Icell; auto]; simpl; lia.
      * split; intros x X; [apply Hch in X; [destruct X; simpl; lia|lia]|].
        apply Hown in X; [destruct X; auto|lia].
    + intros l Q. destruct (Nat.lt_ge_cases l (nx s)) as [L|L].
      * rewrite Hold by auto. auto.
      * destruct (Nat.lt_ge_cases l (nx s + n)) as [L2|L2].
        -- split; intros x X; [eapply Hch; eauto; lia|].
           eapply Hown; [|eauto]; lia.
        -- rewrite Hfresh by auto. split; intros x X; [exfalso; eapply child_zero; eauto|discriminate].
    + intros k Q. destruct (Icache k Q) as (A & B & C & D). repeat split; auto.
      eapply Forall_impl; [|apply D]. simpl; intros; lia.
    + auto.
    + auto.
    + intros l Q. apply IP in Q. lia.
    + auto.
    + auto.
  - unfold keeps; simpl; repeat split; auto; try lia.
    intros l Q. apply Hold. apply (i_P _ _ _ I') in Q. lia.
Qed.

(** Giving a new slot list, made of addresses that no cache uses, to cache [k]
    (new or existing). *)
Lemma tr_new_slots s k c n :
  inv P PC s -> (nc s <= n)%nat -> (k < n)%nat -> (n <= S (nc s))%nat -> (nc s < n -> k = nc s)%nat -> ~ PC k ->
  (ca_len c <= List.length (ca_slots c))%nat -> ca_slots c <> [] -> NoDup (ca_slots c) ->
  Forall (fun l => (5 <= l < nx s)%nat /\ ~ P l /\
            forall k', (k' < nc s)%nat -> ~ In l (ca_slots (cs s k'))) (ca_slots c) ->
  tr s (mkSt (hp s) (nx s) (upd (cs s) k c) n (pl s)).
Proof.
  intros I N1 N2 N4 N5 N3 C1 C2 C3 C4. rewrite Forall_forall in C4.
  split.
  - destruct I as [Inx Iconst Ifresh Icell Isep Icache Idisj Ipool IP IPC Islots]. constructor; simpl; auto.
    + intros l Q. eapply valid_cell_mono; [| |apply Icell; auto]; simpl; auto.
    + intros k' Q. destruct (Nat.eq_dec k' k) as [->|Nk].
      * rewrite upd_same. repeat split; auto. apply Forall_forall. intros x X. apply C4 in X. tauto.
      * rewrite upd_other by auto. destruct (Icache k') as (A & B & C & D); [lia|].
        repeat split; auto.
    + intros k1 k2 l Q1 Q2. unfold upd.
      destruct (Nat.eqb_spec k1 k), (Nat.eqb_spec k2 k); subst; auto.
      * intros A B. apply C4 in A. destruct A as (_ & _ & A). exfalso. apply (A k2); [|exact B].
        lia.
      * intros A B. apply C4 in B. destruct B as (_ & _ & B). exfalso. apply (B k1); [|exact A].
        lia.
      * intros A B. eapply Idisj; eauto; lia.
    + intros k' Q. destruct (Ipool k' Q). split; auto. lia.
    + intros k' Q. apply IPC in Q. lia.
    + intros k' l Q1 Q2. unfold upd. destruct (k' =? k)%nat eqn:E1.
      * intros A. apply C4 in A. tauto.
      * apply Nat.eqb_neq in E1. apply Islots; auto. lia.
  - unfold keeps; simpl; repeat split; auto.
    intros k' Q. rewrite upd_other; auto. intros ->. contradiction.
Qed.

Lemma new_slots_ok s n a k : inv P PC s -> a = nx s ->
  Forall (fun l => (5 <= l < nx s + n)%nat /\ ~ P l /\
            forall k', (k' < nc s)%nat -> ~ In l (ca_slots (cs s k'))) (seq a n) /\
  (k = nc s -> ~ PC k).
Proof.
  intros I ->. split.
  - apply Forall_forall. intros l Q. apply In_seq_ge in Q. pose proof (i_nx _ _ _ I).
    repeat split; try lia.
    + intros Z. apply (i_P _ _ _ I) in Z. lia.
    + intros k' K Z. destruct (i_cache _ _ _ I k' K) as (_ & _ & _ & D).
      rewrite Forall_forall in D. apply D in Z. lia.
  - intros -> Z. apply (i_PC _ _ _ I) in Z. lia.
Qed.

(** The record [getCache] and [getValue nil] create. *)
Lemma tr_new_cache s b n : inv P PC s -> (n <= 8)%nat ->
  tr s (mkSt (hp s) (nx s + 8) (upd (cs s) (nc s) (mkCache b (seq (nx s) 8) n)) (S (nc s)) (pl s)) /\
  ~ PC (nc s).
Proof.
  intros I Hn. destruct (new_slots_ok s 8 (nx s) (nc s) I eq_refl) as [F NP]. specialize (NP eq_refl).
  split; auto.
  pose proof (tr_alloc s (hp s) 8 I (fun l _ => eq_refl)
    (fun l H => i_fresh _ _ _ I l ltac:(lia))) as T.
  assert (T1 : tr s (mkSt (hp s) (nx s + 8) (cs s) (nc s) (pl s))).
  { apply T; intros l Hl; rewrite (i_fresh _ _ _ I) by lia.
    - intros x X; exfalso; eapply child_zero; eauto.
    - intros k X; discriminate. }
  eapply tr_trans; [exact T1|].
  apply (tr_new_slots (mkSt (hp s) (nx s + 8) (cs s) (nc s) (pl s)) (nc s)
           (mkCache b (seq (nx s) 8) n) (S (nc s))); cbn [nx nc cs ca_len ca_slots]; auto.
  - apply T1.
  - discriminate.
  - apply seq_NoDup.
Qed.

Lemma tr_getCache s ch : inv P PC s ->
  let r := getCache s ch in
  tr s (snd r) /\ ok_cache (snd r) (Some (fst r)).
Proof.
  intros I. unfold getCache.
  assert (New : tr s (mkSt (hp s) (nx s + 8)
      (upd (cs s) (nc s) (mkCache true (seq (nx s) 8) 0)) (S (nc s)) (pl s)) /\
    ok_cache (mkSt (hp s) (nx s + 8)
      (upd (cs s) (nc s) (mkCache true (seq (nx s) 8) 0)) (S (nc s)) (pl s)) (Some (nc s))).
  { destruct (tr_new_cache s true 0 I) as [T NP]; [lia|]. split; auto.
    intros k Q; injection Q as <-; simpl; auto. }
  destruct ch as [i|]; [|exact New].
  destruct (nth_error (pl s) i) as [k|] eqn:Q; [|exact New]. clear New.
  cbn [fst snd].
  destruct (i_pool _ _ _ I k (nth_error_In _ _ Q)) as [K1 K2].
  split; [|intros k' Z; injection Z as <-; auto].
  assert (T : tr s (set_cache s k (mkCache true (ca_slots (cs s k)) (ca_len (cs s k))))).
  { apply tr_set_cache; auto. destruct (i_cache _ _ _ I k K1) as (A & _). exact A. }
  destruct T as [T1 T2]. split.
  - destruct T1 as [Inx Iconst Ifresh Icell Isep Icache Idisj Ipool IP IPC Islots]. constructor; simpl in *; auto.
    intros k' Z. apply In_remove_at in Z. auto.
  - exact T2.
Qed.

Lemma copy_cells_spec f src dst g l :
  copy_cells f src dst g l =
  if ((dst <=? l) && (l <? dst + List.length src))%nat then f (nth (l - dst) src 0%nat) else g l.
Proof.
  revert dst; induction src as [|a r IH]; intros dst; simpl.
  - destruct (dst <=? l)%nat eqn:A; simpl; auto.
    destruct (l <? dst + 0)%nat eqn:B; auto. apply Nat.leb_le in A. apply Nat.ltb_lt in B. lia.
  - unfold upd. destruct (l =? dst)%nat eqn:Q.
    + apply Nat.eqb_eq in Q. subst.
      replace (dst <=? dst)%nat with true by (symmetry; apply Nat.leb_le; lia).
      replace (dst <? dst + S (List.length r))%nat with true by (symmetry; apply Nat.ltb_lt; lia).
      rewrite Nat.sub_diag. reflexivity.
    + apply Nat.eqb_neq in Q. rewrite IH.
      destruct (S dst <=? l)%nat eqn:A1, (dst <=? l)%nat eqn:A2; simpl;
        try apply Nat.leb_le in A1; try apply Nat.leb_le in A2;
        try apply Nat.leb_gt in A1; try apply Nat.leb_gt in A2; try lia; auto.
      replace (dst + S (List.length r))%nat with (S (dst + List.length r)) by lia.
      destruct (l <? S (dst + List.length r))%nat eqn:A3; auto.
      destruct (l - dst)%nat eqn:A4; [lia|]. replace (l - S dst)%nat with n by lia. reflexivity.
Qed.

(** [getValue] on a cache: the slot it hands out. *)
Lemma tr_getValue_some G s k t : inv P PC s -> (k < nc s)%nat -> ~ PC k ->
  let r := getValue G s (Some k) t in
  tr s (snd r) /\ ok_loc (snd r) (fst r) /\ (5 <= fst r)%nat.
Proof.
  intros I K NK. unfold getValue.
  set (c := cs s k).
  destruct (i_cache _ _ _ I k K) as (A & B & C & D). fold c in A, B, C, D.
  set (s1 := cache_room G s k).
  assert (H : tr s s1 /\ (k < nc s1)%nat /\
     (ca_len c < List.length (ca_slots (cs s1 k)))%nat /\ ca_root (cs s1 k) = ca_root c).
  { unfold s1, cache_room. fold c. destruct (ca_len c <? List.length (ca_slots c))%nat eqn:L.
    - apply Nat.ltb_lt in L. split.
      + apply tr_set_cache; auto.
      + simpl. rewrite upd_same; simpl. auto.
    - apply Nat.ltb_ge in L.
      set (n := S (ca_len c + G (ca_len c))).
      destruct (new_slots_ok s n (nx s) k I eq_refl) as [F _].
      set (h := copy_cells (hp s) (firstn (ca_len c) (ca_slots c)) (nx s) (hp s)).
      assert (T1 : tr s (mkSt h (nx s + n) (cs s) (nc s) (pl s))).
      { apply tr_alloc; auto; unfold h.
        - intros l Q. rewrite copy_cells_spec.
          replace (nx s <=? l)%nat with false by (symmetry; apply Nat.leb_gt; auto). reflexivity.
        - intros l Q. rewrite copy_cells_spec.
          replace (l <? nx s + Datatypes.length (firstn (ca_len c) (ca_slots c)))%nat with false.
          + rewrite andb_false_r. apply (i_fresh _ _ _ I). lia.
          + symmetry. apply Nat.ltb_ge. rewrite firstn_length. unfold n in Q. lia.
        - intros l Q x. rewrite copy_cells_spec.
          destruct ((nx s <=? l)%nat && _) eqn:X.
          + apply andb_true_iff in X as [X1 X2]. apply Nat.ltb_lt in X2. apply Nat.leb_le in X1.
            set (y := nth (l - nx s) (firstn (ca_len c) (ca_slots c)) 0%nat).
            assert (Y : In y (ca_slots c)).
            { assert (Y : In y (firstn (ca_len c) (ca_slots c))) by (apply nth_In; lia).
              rewrite <- (firstn_skipn (ca_len c)). apply in_or_app. auto. }
            intros Z. apply (cell_ok_at s y I); auto. split.
            * rewrite Forall_forall in D. apply D in Y. lia.
            * eapply (i_slots _ _ _ I); eauto.
          + rewrite (i_fresh _ _ _ I) by lia. intros Z; exfalso; eapply child_zero; eauto.
        - intros l Q. rewrite copy_cells_spec.
          destruct ((nx s <=? l)%nat && _) eqn:X.
          + apply andb_true_iff in X as [X1 X2]. apply Nat.ltb_lt in X2. apply Nat.leb_le in X1.
            set (y := nth (l - nx s) (firstn (ca_len c) (ca_slots c)) 0%nat).
            assert (Y : In y (ca_slots c)).
            { assert (Y : In y (firstn (ca_len c) (ca_slots c))) by (apply nth_In; lia).
              rewrite <- (firstn_skipn (ca_len c)). apply in_or_app. auto. }
            apply (cell_ok_at s y I); auto. split.
            * rewrite Forall_forall in D. apply D in Y. lia.
            * eapply (i_slots _ _ _ I); eauto.
          + rewrite (i_fresh _ _ _ I) by lia. intros z Z; discriminate. }
      split; [|cbn [cs nc]; rewrite upd_same; cbn [ca_slots ca_root]; rewrite seq_length; unfold n;
        repeat split; auto; lia].
      eapply tr_trans; [exact T1|].
      apply (tr_new_slots (mkSt h (nx s + n) (cs s) (nc s) (pl s)) k
        (mkCache (ca_root c) (seq (nx s) n) (S (ca_len c))) (nc s)); simpl nx; simpl nc; simpl cs;
        cbn [ca_len ca_slots]; auto.
      + apply T1.
      + lia.
      + rewrite seq_length. unfold n. lia.
      + unfold n. discriminate.
      + apply seq_NoDup. }
  clearbody s1. destruct H as (T1 & K1 & L1 & R1).
  set (l := nth (ca_len c) (ca_slots (cs s1 k)) 0%nat).
  assert (I1 : inv P PC s1) by apply T1.
  assert (Lin : In l (ca_slots (cs s1 k))) by (apply nth_In; auto).
  destruct (i_cache _ _ _ I1 k K1) as (_ & _ & _ & D1). rewrite Forall_forall in D1.
  assert (Lok : ok_loc s1 l).
  { split; [apply D1 in Lin; lia|]. eapply (i_slots _ _ _ I1); eauto. }
  assert (L5 : (5 <= l)%nat) by (apply D1 in Lin; lia).
  clearbody l.
  pose proof (tr_Reset s1 l t I1 Lok) as T2.
  assert (T12 : tr s (Reset s1 l t)) by exact (tr_trans _ _ _ T1 T2).
  destruct (ca_root c); cbn [fst snd]; [|split; [auto|split; auto; exact (ok_loc_tr _ _ _ T2 Lok)]].
  set (s2 := Reset s1 l t) in *.
  assert (K2 : (k < nc s2)%nat) by (destruct T2 as [_ (_ & X & _)]; lia).
  assert (T3 : tr s2 (set_cache s2 k (mkCache false (ca_slots (cs s2 k)) (ca_len (cs s2 k))))).
  { apply tr_set_cache; auto; [apply T2|]. simpl.
    destruct T2 as [I2 _]. destruct (i_cache _ _ _ I2 k K2) as (X & _). exact X. }
  set (s3 := set_cache s2 k (mkCache false (ca_slots (cs s2 k)) (ca_len (cs s2 k)))) in *.
  assert (T13 : tr s s3) by exact (tr_trans _ _ _ T12 T3).
  assert (Lok3 : ok_loc s3 l) by exact (ok_loc_tr _ _ _ T3 (ok_loc_tr _ _ _ T2 Lok)).
  assert (T4 : tr s3 (set_cell s3 l (w_own (hp s3 l) (Some k)))).
  { apply tr_set_cell; [apply T3|exact Lok3| |intros; lia].
    destruct T3 as [I3 _]. split.
    - intros x X. apply (cell_ok_at s3 l); auto.
    - simpl. intros k' Z; injection Z as <-. split; auto. }
  split; [exact (tr_trans _ _ _ T13 T4)|]. split; auto.
Qed.

Lemma tr_getValue_none G s t : inv P PC s ->
  let r := getValue G s None t in
  tr s (snd r) /\ ok_loc (snd r) (fst r) /\ (5 <= fst r)%nat.
Proof.
  intros I. unfold getValue. cbn [fst snd].
  destruct (tr_new_cache s false 1 I) as [T NP]; [lia|].
  set (s1 := mkSt _ _ _ _ _) in T.
  assert (NPl : ~ P (nx s)) by (intros Z; apply (i_P _ _ _ I) in Z; lia).
  assert (Lok : ok_loc s1 (nx s)) by (split; [simpl; lia|auto]).
  pose proof (i_nx _ _ _ I) as N5.
  split; [|split; [split; [simpl; lia|auto]|auto]].
  eapply tr_trans; [exact T|].
  apply (tr_set_cell s1 (nx s) (mkCell t 0 false [] [] (Some (nc s)) 0 [] [] [])); auto; [apply T| |lia].
  split; [intros x [X|X]; destruct X|]. intros k' Z; injection Z as <-. simpl. auto.
Qed.

Lemma tr_getValue G s c t : inv P PC s -> ok_cache s c ->
  let r := getValue G s c t in
  tr s (snd r) /\ ok_loc (snd r) (fst r) /\ (5 <= fst r)%nat.
Proof.
  intros I C. destruct c as [k|].
  - destruct (C k eq_refl). apply tr_getValue_some; auto.
  - apply tr_getValue_none; auto.
Qed.

Lemma tr_new s c : inv P PC s -> (forall x, ~ child c x) -> c_own c = None ->
  tr s (mkSt (upd (hp s) (nx s) c) (S (nx s)) (cs s) (nc s) (pl s)) /\
  ok_loc (mkSt (upd (hp s) (nx s) c) (S (nx s)) (cs s) (nc s) (pl s)) (nx s).
Proof.
  intros I H O. split.
  - pose proof (tr_alloc s (upd (hp s) (nx s) c) 1 I) as T.
    rewrite Nat.add_1_r in T. apply T.
    + intros l Q. apply upd_other. lia.
    + intros l Q. rewrite upd_other by lia. apply (i_fresh _ _ _ I). lia.
    + intros l Q. assert (l = nx s) as -> by lia. rewrite upd_same. intros x X. exfalso. eapply H; eauto.
    + intros l Q. assert (l = nx s) as -> by lia. rewrite upd_same, O. intros k Z; discriminate.
  - split; [simpl; lia|]. intros Z. apply (i_P _ _ _ I) in Z. lia.
Qed.

Lemma tr_NewValue s t : inv P PC s ->
  tr s (snd (NewValue s t)) /\ ok_loc (snd (NewValue s t)) (fst (NewValue s t)).
Proof.
  intros I. pose proof (fun l H => const_ok s l I H) as CO.
  destruct t; cbn [NewValue fst snd];
    try (apply tr_new; auto; intros x; apply no_child_reset);
    (split; [apply tr_refl; auto|apply CO; repeat constructor]).
Qed.

Lemma tr_NewCacheValue G s ch t : inv P PC s ->
  tr s (snd (NewCacheValue G s ch t)) /\ ok_loc (snd (NewCacheValue G s ch t)) (fst (NewCacheValue G s ch t)).
Proof.
  intros I. pose proof (fun l H => const_ok s l I H) as CO.
  assert (N : tr s (snd (let (k, s1) := getCache s ch in getValue G s1 (Some k) t)) /\
     ok_loc (snd (let (k, s1) := getCache s ch in getValue G s1 (Some k) t))
        (fst (let (k, s1) := getCache s ch in getValue G s1 (Some k) t))).
  { destruct (tr_getCache s ch I) as [T C]. destruct (getCache s ch) as [k s1].
    cbn [fst snd] in T, C. destruct (tr_getValue G s1 (Some k) t) as (T2 & O & _); auto; [apply T|].
    split; auto. eapply tr_trans; eauto. }
  unfold NewCacheValue. destruct t; try exact N;
    cbn [fst snd]; (split; [apply tr_refl; auto|apply CO; repeat constructor]).
Qed.

(** ** [Clear] and [FreeValue] *)
Lemma tr_cache_reset s k b s' : inv P PC s -> ok_cache s (Some k) ->
  cache_reset s k b = Ok s' -> tr s s' /\ hp s' = hp s.
Proof.
  intros I C H. destruct (C k eq_refl) as [K NK]. unfold cache_reset in H.
  destruct (i_cache _ _ _ I k K) as (A & B & _).
  destruct b.
  - injection H as <-. split; auto. apply tr_set_cache; auto. simpl. lia.
  - destruct (ca_slots (cs s k)) eqn:Q; [discriminate|]. injection H as <-. rewrite <- Q. split; auto.
    apply tr_set_cache; auto. cbn [ca_len ca_slots]. rewrite Q. simpl. lia.
Qed.

Lemma dt_clear c : c_dt (clear_cell c) = c_dt c.
Proof. unfold clear_cell. destruct (c_dt c) eqn:Q; auto. Qed.
Lemma own_clear c : c_own (clear_cell c) = c_own c.
Proof. unfold clear_cell. destruct (c_dt c) eqn:Q; auto. Qed.
Lemma child_clear c x : child (clear_cell c) x -> child c x.
Proof. unfold child, clear_cell. destruct (c_dt c); simpl; tauto. Qed.

Lemma tr_Clear s l s' : inv P PC s -> ok_loc s l -> Clear s l = Ok s' -> tr s s'.
Proof.
  intros I O H. unfold Clear in H. apply bind_ok in H as (s1 & H1 & H).
  injection H as <-.
  assert (T : tr s s1 /\ hp s1 = hp s).
  { destruct (c_own (hp s l)) as [k|] eqn:Q.
    - eapply tr_cache_reset; eauto. rewrite <- Q. apply cell_ok_at; auto.
    - injection H1 as <-. split; auto. apply tr_refl; auto. }
  destruct T as [T HP].
  eapply tr_trans; [exact T|]. apply tr_set_cell; [apply T|eapply ok_loc_tr; eauto| |].
  - destruct T as [I1 T]. assert (O1 : ok_loc s1 l) by (eapply ok_loc_tr; eauto; split; auto; apply T).
    destruct (cell_ok_at s1 l I1 O1) as [A B]. split.
    + intros x X. apply child_clear in X. auto.
    + rewrite own_clear. auto.
  - intros _. apply dt_clear.
Qed.

Lemma tr_FreeValue s p s' : inv P PC s -> ok_ptr s p -> FreeValue s p = Ok s' -> tr s s'.
Proof.
  intros I O H. destruct p as [l|]; [|injection H as <-; apply tr_refl; auto].
  apply ok_ptr_some in O. unfold FreeValue in H. apply bind_ok in H as (s1 & H1 & H).
  apply tr_Clear in H1; auto. cbv zeta in H.
  assert (I1 : inv P PC s1) by apply H1.
  assert (O1 : ok_loc s1 l) by (eapply ok_loc_tr; eauto).
  assert (T2 : tr s1 (set_cell s1 l (w_own (hp s1 l) None))).
  { apply tr_set_cell; auto. destruct (cell_ok_at s1 l I1 O1) as [A B]. split.
    - intros x X. apply A. exact X.
    - intros k Z; discriminate. }
  set (s2 := set_cell s1 l (w_own (hp s1 l) None)) in *.
  assert (T12 : tr s s2) by exact (tr_trans _ _ _ H1 T2).
  destruct (c_own (hp s1 l)) as [k|] eqn:Q; [|injection H as <-; auto].
  apply bind_ok in H as (s3 & H3 & H). injection H as <-.
  assert (CK : ok_cache s2 (Some k)).
  { apply (ok_cache_tr _ _ _ T2). rewrite <- Q. apply cell_ok_at; auto. }
  apply tr_cache_reset in H3 as [T3 _]; auto; [|apply T2].
  assert (CK3 : ok_cache s3 (Some k)) by exact (ok_cache_tr _ _ _ T3 CK).
  destruct (CK3 k eq_refl) as [K1 K2].
  eapply tr_trans; [exact T12|]. destruct T3 as [I3 T3]. split.
  - destruct I3 as [Inx Iconst Ifresh Icell Isep Icache Idisj Ipool IP IPC Islots]. constructor; simpl; auto. intros k' [<-|Z]; auto.
  - exact T3.
Qed.

End Prim.
