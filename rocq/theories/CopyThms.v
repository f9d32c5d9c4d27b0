(** Copies of a value's struct. *)
From Verif Require Import Base Values Tactics HeapModel HeapSpec HeapBase HeapConf HeapGet HeapCalls HeapForce HeapClone HeapMerge HeapEqual HeapBuild MsgLoadThms MarshalModel.
Local Notation N := none_set.

(** ** The copy *)
Lemma copy_hp s l x : (x < nx s)%nat -> hp (copy_of s l) x = hp s x.
Proof. intros L. cbn [copy_of hp]. apply upd_other. lia. Qed.
Lemma copy_at s l : hp (copy_of s l) (nx s) = hp s l.
Proof. cbn [copy_of hp]. apply upd_same. Qed.
Lemma copy_wf s l : wf s -> (l < nx s)%nat -> wf (copy_of s l).
Proof.
  intros W L. pose proof (tr_alloc N N s (upd (hp s) (nx s) (hp s l)) 1 W) as T. rewrite Nat.add_1_r in T. apply T.
  - intros x X. apply upd_other. lia.
  - intros x X. rewrite upd_other by lia. apply (i_fresh _ _ _ W). lia.
  - intros x X y. assert (x = nx s) as -> by lia. rewrite upd_same. apply (cell_ok_at N N s l W). split; [exact L|intros []].
  - intros x X. assert (x = nx s) as -> by lia. rewrite upd_same. apply (cell_ok_at N N s l W). split; [exact L|intros []].
Qed.
Lemma reach_below s a x : wf s -> (a < nx s)%nat -> reach (hp s) a x -> (x < nx s)%nat.
Proof.
  intros W L R. induction R as [|x y R IH S]; [exact L|]. apply (i_cell _ _ _ W x IH). unfold sees in S. unfold child.
  destruct (c_dt (hp s x)); auto; destruct S.
Qed.
Lemma copy_rep s l v : wf s -> (l < nx s)%nat -> rep (hp s) (Some l) v -> rep (hp (copy_of s l)) (Some (nx s)) v.
Proof.
  intros W L R.
  assert (K : forall y u, sees (hp s l) y -> rep (hp s) (Some y) u -> rep (hp (copy_of s l)) (Some y) u).
  { intros y u S RY. apply (rep_frame (hp s)); auto. intros x (z & Q & X). injection Q as <-. apply copy_hp.
    apply (reach_below s l x W L). exact (reach_trans _ _ _ _ (reach_child _ _ _ S) X). }
  assert (KP : forall p u, (forall y, p = Some y -> sees (hp s l) y) -> rep (hp s) p u -> rep (hp (copy_of s l)) p u).
  { intros [y|] u A B; [apply K; auto|]. inversion B; subst. constructor. }
  inversion R as [|l0 kvs D F|l0 vs D F|l0 D|l0 D|l0 D|l0 D|l0 D|l0 D|l0 D|l0 D|l0 D|l0 D|l0 D|l0 D|l0 D]; subst l0;
    try (constructor; rewrite copy_at; assumption);
    try (rewrite <- (copy_at s l); constructor; rewrite copy_at; assumption).
  - apply rep_obj_intro; rewrite copy_at; auto. eapply F2_in; [exact F|]. intros a u IN [A B]. split; [exact A|]. apply KP; auto.
    intros y Y. apply (sees_obj (fun n => n)); auto. rewrite <- Y. apply in_map. exact IN.
  - apply rep_arr; rewrite copy_at; auto. eapply F2_in; [exact F|]. intros a u IN B. apply KP; auto.
    intros y ->. apply (sees_arr (fun n => n)); auto.
Qed.
Lemma copy_live s l x : wf s -> live (copy_of s l) x <-> live s x \/ x = nx s.
Proof.
  intros W. split.
  - intros [A B]. cbn [copy_of nx nc cs] in *. destruct (Nat.eq_dec x (nx s)) as [->|Q]; [auto|]. left. split; [lia|exact B].
  - intros [[A B]| ->]; (split; cbn [copy_of nx nc cs]; [lia|]); [exact B|]. intros k K IN.
    destruct (i_cache _ _ _ W k K) as (_ & _ & _ & F). rewrite Forall_forall in F.
    assert (IN' : In (nx s) (ca_slots (cs s k))) by (rewrite <- (firstn_skipn (ca_len (cs s k))); apply in_or_app; auto).
    specialize (F _ IN'). lia.
Qed.
