(** More fuel does not change an answer; what [Equal] and [clone] leave alone. *)
From Verif Require Import Base Values Tactics HeapModel HeapSpec HeapBase HeapConf HeapGet ApiSpec HeapClone HeapEqual.

Section Mono.
Variable E : env.
Variable G : nat -> nat.

Lemma bind_Ok {A B} (m : res A) (f : A -> res B) b : bind m f = Ok b -> exists a, m = Ok a /\ f a = Ok b.
Proof. destruct m; cbn; try discriminate. eauto. Qed.

Lemma equal_mono_all f :
  (forall s p q r, Equal E f s p q = Ok r -> forall f', (f <= f')%nat -> Equal E f' s p q = Ok r) /\
  (forall s l m i r, equal_kvs E f s l m i = Ok r -> forall f', (f <= f')%nat -> equal_kvs E f' s l m i = Ok r) /\
  (forall s l m i r, equal_arr E f s l m i = Ok r -> forall f', (f <= f')%nat -> equal_arr E f' s l m i = Ok r).
Proof.
  induction f as [|f (IH1 & IH2 & IH3)]; [split; [|split]; intros; discriminate|].
  split; [|split].
  - intros s p q r H [|f'] L; [lia|]. rewrite Equal_S in H |- *. cbv zeta in *.
    destruct p as [l|], q as [m|]; auto. destruct (negb _); auto.
    destruct (c_dt (hp s l)); auto; [destruct (negb _); auto; apply IH2; auto; lia|apply IH3; auto; lia].
  - intros s l m i r H [|f'] L; [lia|]. rewrite equal_kvs_S in H |- *.
    destruct (nth_error (c_kvs (hp s l)) i) as [[k p]|]; auto.
    destruct (nth_error (c_kvs (hp s m)) i) as [[k' q]|]; auto. destruct (negb _); auto.
    apply bind_Ok in H as ([b s1] & H1 & H2). rewrite (IH1 _ _ _ _ H1) by lia. cbn [bind].
    destruct b; auto. apply IH2; auto; lia.
  - intros s l m i r H [|f'] L; [lia|]. rewrite equal_arr_S in H |- *.
    destruct (nth_error (c_arr (hp s l)) i) as [p|]; auto.
    destruct (nth_error (c_arr (hp s m)) i) as [q|]; auto.
    apply bind_Ok in H as ([b s1] & H1 & H2). rewrite (IH1 _ _ _ _ H1) by lia. cbn [bind].
    destruct b; auto. apply IH3; auto; lia.
Qed.
Lemma equal_mono f f' s p q r : Equal E f s p q = Ok r -> (f <= f')%nat -> Equal E f' s p q = Ok r.
Proof. intros H L. eapply equal_mono_all; eauto. Qed.

Lemma clone_mono_all f :
  (forall s p c r, clone G f s p c = Ok r -> forall f', (f <= f')%nat -> clone G f' s p c = Ok r) /\
  (forall s d src i c r, clone_kvs G f s d src i c = Ok r -> forall f', (f <= f')%nat -> clone_kvs G f' s d src i c = Ok r) /\
  (forall s d src i c r, clone_arr G f s d src i c = Ok r -> forall f', (f <= f')%nat -> clone_arr G f' s d src i c = Ok r).
Proof.
  induction f as [|f (IH1 & IH2 & IH3)]; [split; [|split]; intros; discriminate|].
  split; [|split].
  - intros s p c r H [|f'] L; [lia|]. destruct p as [l|]; [|exact H]. rewrite clone_eq in H |- *. cbv zeta in *.
    destruct (_ <=? _); auto. destruct (getValue G s c (c_dt (hp s l))) as [x s1]. destruct (_ && _); auto.
    destruct (c_dt (hp s l)); auto; apply bind_Ok in H as (s3 & H1 & H2);
      [rewrite (IH2 _ _ _ _ _ _ H1) by lia|rewrite (IH3 _ _ _ _ _ _ H1) by lia]; exact H2.
  - intros s d src i c r H [|f'] L; [lia|]. rewrite clone_kvs_S in H |- *.
    destruct (nth_error (c_kvs (hp s src)) i) as [[k p]|]; auto.
    apply bind_Ok in H as ([x s1] & H1 & H2). rewrite (IH1 _ _ _ _ H1) by lia. cbn [bind]. apply IH2; auto; lia.
  - intros s d src i c r H [|f'] L; [lia|]. rewrite clone_arr_S in H |- *.
    destruct (nth_error (c_arr (hp s src)) i) as [p|]; auto.
    apply bind_Ok in H as ([x s1] & H1 & H2). rewrite (IH1 _ _ _ _ H1) by lia. cbn [bind]. apply IH3; auto; lia.
Qed.
Lemma clone_mono f f' s p c r : clone G f s p c = Ok r -> (f <= f')%nat -> clone G f' s p c = Ok r.
Proof. intros H L. eapply clone_mono_all; eauto. Qed.

(** [Equal] touches cells only. *)
Definition rest_same (s s' : st) : Prop := nx s' = nx s /\ cs s' = cs s /\ nc s' = nc s /\ pl s' = pl s.
Lemma rest_trans s1 s2 s3 : rest_same s1 s2 -> rest_same s2 s3 -> rest_same s1 s3.
Proof. intros (A & B & C & D) (A' & B' & C' & D'). repeat split; congruence. Qed.
Lemma rest_refl s : rest_same s s. Proof. repeat split. Qed.
Lemma equal_rest_all f :
  (forall s p q b s', Equal E f s p q = Ok (b, s') -> rest_same s s') /\
  (forall s l m i b s', equal_kvs E f s l m i = Ok (b, s') -> rest_same s s') /\
  (forall s l m i b s', equal_arr E f s l m i = Ok (b, s') -> rest_same s s').
Proof.
  induction f as [|f (IH1 & IH2 & IH3)]; [split; [|split]; intros; discriminate|].
  split; [|split].
  - intros s p q b s' H. rewrite Equal_S in H. cbv zeta in H.
    assert (KK : forall x s1, Ok (x, s1) = Ok (b, s') -> rest_same s s1 -> rest_same s s').
    { intros x s1 Q R. injection Q as _ <-. exact R. }
    destruct p as [l|], q as [m|]; try (eapply KK; [exact H|apply rest_refl]).
    destruct (negb _).
    + destruct (_ || _).
      * destruct (StringOf E (hp s l)) as [x a]. destruct (StringOf E _) as [y b']. eapply KK; [exact H|]. repeat split.
      * destruct (_ && _); (eapply KK; [exact H|apply rest_refl]).
    + destruct (c_dt (hp s l)); try (eapply KK; [exact H|apply rest_refl]).
      * destruct (negb _); [eapply KK; [exact H|apply rest_refl]|]. apply IH2 in H. eapply rest_trans; [|exact H]. repeat split.
      * apply IH3 in H. exact H.
  - intros s l m i b s' H. rewrite equal_kvs_S in H.
    destruct (nth_error (c_kvs (hp s l)) i) as [[k p]|]; [|injection H as _ <-; apply rest_refl].
    destruct (nth_error (c_kvs (hp s m)) i) as [[k' q]|]; [|discriminate].
    destruct (negb _); [injection H as _ <-; apply rest_refl|].
    apply bind_Ok in H as ([r s1] & H1 & H2). apply IH1 in H1. destruct r; [|injection H2 as _ <-; auto].
    apply IH2 in H2. eapply rest_trans; eauto.
  - intros s l m i b s' H. rewrite equal_arr_S in H.
    destruct (nth_error (c_arr (hp s l)) i) as [p|]; [|injection H as _ <-; apply rest_refl].
    destruct (nth_error (c_arr (hp s m)) i) as [q|]; [|discriminate].
    apply bind_Ok in H as ([r s1] & H1 & H2). apply IH1 in H1. destruct r; [|injection H2 as _ <-; auto].
    apply IH3 in H2. eapply rest_trans; eauto.
Qed.
Lemma equal_rest f s p q b s' : Equal E f s p q = Ok (b, s') -> rest_same s s'.
Proof. apply equal_rest_all. Qed.
Lemma rest_live s s' x : rest_same s s' -> live s' x <-> live s x.
Proof. intros (A & B & C & _). unfold live. rewrite A, B, C. tauto. Qed.

(** The 8-byte slots stay words. *)
Lemma slots_set s l c : slots64 (hp s) -> 0 <= c_sv c < 2^64 -> slots64 (hp (set_cell s l c)).
Proof. intros H C x. cbn [set_cell hp]. unfold upd. destruct (x =? l)%nat; auto. Qed.
Lemma sv_push c k p : c_sv (push_kv G c k p) = c_sv c.
Proof. unfold push_kv. cbv zeta. destruct (c_spare c); reflexivity. Qed.
Lemma slots_copy f src : (forall a, 0 <= c_sv (f a) < 2^64) -> forall dst g, slots64 g -> slots64 (copy_cells f src dst g).
Proof.
  intros F. induction src as [|a r IH]; intros dst g H; cbn [copy_cells]; auto.
  intros x. unfold upd. destruct (x =? dst)%nat; auto. apply IH; auto.
Qed.
Lemma slots_reset s l t : slots64 (hp s) -> slots64 (hp (Reset s l t)).
Proof. intros H. unfold Reset. destruct (ReadOnly l); auto. apply slots_set; auto. rewrite sv_reset. apply H. Qed.
Lemma slots_getValue s c t : slots64 (hp s) -> slots64 (hp (snd (getValue G s c t))).
Proof.
  intros H. unfold getValue. destruct c as [k|].
  - cbv zeta. set (s1 := cache_room G s k).
    assert (H1 : slots64 (hp s1)).
    { unfold s1, cache_room. cbv zeta. destruct (_ <? _)%nat; [exact H|]. cbn [hp]. apply slots_copy; auto. }
    pose proof (slots_reset s1 (nth (ca_len (cs s k)) (ca_slots (cs s1 k)) 0%nat) t H1) as H2.
    destruct (ca_root (cs s k)); cbn [snd]; [|exact H2]. apply slots_set; [exact H2|]. apply H2.
  - cbn [snd hp]. intros x. unfold upd. destruct (x =? nx s)%nat; [cbn; lia|apply H].
Qed.
Lemma slots_clone_all f :
  (forall s p c r s', clone G f s p c = Ok (r, s') -> slots64 (hp s) -> slots64 (hp s')) /\
  (forall s d src i c s', clone_kvs G f s d src i c = Ok s' -> slots64 (hp s) -> slots64 (hp s')) /\
  (forall s d src i c s', clone_arr G f s d src i c = Ok s' -> slots64 (hp s) -> slots64 (hp s')).
Proof.
  induction f as [|f (IH1 & IH2 & IH3)]; [split; [|split]; intros; discriminate|].
  split; [|split].
  - intros s p c r s' H H0. destruct p as [l|]; [|discriminate]. rewrite clone_eq in H. cbv zeta in *.
    destruct (_ <=? _); [injection H as _ <-; auto|].
    pose proof (slots_getValue s c (c_dt (hp s l)) H0) as H1. destruct (getValue G s c (c_dt (hp s l))) as [x s1].
    cbn [snd] in H1. destruct (_ && _); [injection H as _ <-; apply slots_set; auto; apply H1|].
    destruct (c_dt (hp s l)); try (injection H as _ <-; auto; apply slots_set; auto; apply H1).
    + apply bind_Ok in H as (s3 & H2 & H3). injection H3 as _ <-. apply IH2 in H2; auto. apply slots_set; auto. apply H1.
    + apply bind_Ok in H as (s3 & H2 & H3). injection H3 as _ <-. apply IH3 in H2; auto.
  - intros s d src i c s' H H0. rewrite clone_kvs_S in H.
    destruct (nth_error (c_kvs (hp s src)) i) as [[k p]|]; [|injection H as <-; auto].
    apply bind_Ok in H as ([x s1] & H1 & H2). apply IH1 in H1; auto. apply IH2 in H2; auto.
    apply slots_set; auto. rewrite sv_push. apply H1.
  - intros s d src i c s' H H0. rewrite clone_arr_S in H.
    destruct (nth_error (c_arr (hp s src)) i) as [p|]; [|injection H as <-; auto].
    apply bind_Ok in H as ([x s1] & H1 & H2). apply IH1 in H1; auto. apply IH3 in H2; auto.
    apply slots_set; auto. apply H1.
Qed.
Lemma slots_clone f s p c r s' : clone G f s p c = Ok (r, s') -> slots64 (hp s) -> slots64 (hp s').
Proof. apply slots_clone_all. Qed.
End Mono.
