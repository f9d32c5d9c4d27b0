(** [MergeWith] on arrays. *)
From Verif Require Import Base Values Tactics HeapModel HeapSpec HeapBase HeapConf HeapGet ApiSpec HeapMap HeapCalls
  HeapObj HeapForce HeapClone HeapEqual HeapMono.

(** ** Specification *)
(** [out] are, in order, the members of [ws] that have the content of no member of [vs]. *)
Inductive kept (E : env) (vs : list value) : list value -> list value -> Prop :=
| kept_nil : kept E vs [] []
| kept_drop w ws out : Exists (same E w) vs -> kept E vs ws out -> kept E vs (w :: ws) out
| kept_take w ws out : ~ Exists (same E w) vs -> kept E vs ws out -> kept E vs (w :: ws) (w :: out).

Section Merge.
Variable E : env.
Variable G : nat -> nat.
Notation N := none_set.
Notation nrep := (nrep E).
Notation lazy := (lazy E).
Notation norm := (norm E).

(** ** Normal forms *)
Lemma norm_strip v : norm (strip v) = strip (norm v).
Proof.
  induction v using value_ind'; cbn [norm strip HeapEqual.norm]; auto.
  - f_equal. rewrite !map_map. cbn [fst snd]. apply map_ext_in. intros kv I. rewrite Forall_forall in H. rewrite (H kv I). reflexivity.
  - f_equal. rewrite !map_map. apply map_ext_in. intros x I. rewrite Forall_forall in H. apply (H x I).
Qed.
Lemma clonable_norm v : clonable (norm v) <-> clonable v.
Proof.
  induction v using value_ind'; cbn [HeapEqual.norm]; try tauto.
  - rewrite !clonable_obj. rewrite Forall_map. cbn [snd]. rewrite !Forall_forall in *.
    split; intros A kv I; apply (H kv I); auto.
  - rewrite !clonable_arr. rewrite Forall_map. rewrite !Forall_forall in *.
    split; intros A kv I; apply (H kv I); auto.
Qed.

(** ** Finite trees have no cycles *)
Fixpoint vsize (v : value) : nat :=
  match v with
  | VObject _ kvs => S ((fix go l := match l with [] => O | kv :: r => (vsize (snd kv) + go r)%nat end) kvs)
  | VArray l => S ((fix go l := match l with [] => O | x :: r => (vsize x + go r)%nat end) l)
  | _ => 1%nat
  end.
Lemma rep_fun h v : forall p v', rep h p v -> rep h p v' -> v = v'.
Proof.
  induction v using value_ind'; intros p v' R R'.
  2:{ apply rep_obj_inv in R as (l & -> & D & -> & F). inversion R'; subst; try congruence. f_equal.
    match goal with X : Forall2 _ (c_kvs _) kvs0 |- _ => rename X into F' end.
    clear - H F F'. revert kvs0 F'. induction F as [|a b la lb [K R] F IH]; intros k' F'; inversion F' as [|? b' ? lb' [K' R'] F'']; subst; auto.
    inversion H; subst. f_equal; [|apply IH; auto]. destruct b, b'; cbn [fst snd] in *. f_equal; [congruence|eauto]. }
  2:{ apply rep_arr_inv in R as (l0 & -> & D & F). inversion R'; subst; try congruence. f_equal.
    match goal with X : Forall2 _ (c_arr _) vs |- _ => rename X into F' end.
    clear - H F F'. revert vs F'. induction F as [|a b la lb R F IH]; intros k' F'; inversion F' as [|? b' ? lb' R' F'']; subst; auto.
    inversion H; subst. f_equal; [eauto|apply IH; auto]. }
  all: inversion R; subst; inversion R'; subst; congruence.
Qed.
Lemma rep_sees h l v y : rep h (Some l) v -> sees (h l) y -> exists v', rep h (Some y) v' /\ (vsize v' < vsize v)%nat.
Proof.
  intros R SE. unfold sees in SE. inversion R; subst; match goal with Q : c_dt (h l) = _ |- _ => rewrite Q in SE end; try contradiction.
  - cbn [vsize]. match goal with X : Forall2 _ (c_kvs _) _ |- _ => rename X into F end. clear R.
    induction F as [|a b la lb [K R] F IH]; [destruct SE|]. destruct SE as [Q|SE].
    + rewrite Q in R. exists (snd b). split; [exact R|]. lia.
    + destruct (IH SE) as (v' & R' & L). exists v'. split; [exact R'|]. lia.
  - cbn [vsize]. match goal with X : Forall2 _ (c_arr _) _ |- _ => rename X into F end. clear R.
    induction F as [|a b la lb R F IH]; [destruct SE|]. destruct SE as [Q|SE].
    + rewrite Q in R. exists b. split; [exact R|]. lia.
    + destruct (IH SE) as (v' & R' & L). exists v'. split; [exact R'|]. lia.
Qed.
Lemma rep_reach h l v x : reach h l x -> rep h (Some l) v -> exists v', rep h (Some x) v' /\ (vsize v' <= vsize v)%nat.
Proof.
  intros X R. induction X as [|x y X IH SE]; [exists v; auto|]. destruct IH as (v' & R' & L).
  destruct (rep_sees h x v' y R' SE) as (v'' & R'' & L''). exists v''. split; [auto|lia].
Qed.
Lemma rep_acyclic h l v y : rep h (Some l) v -> sees (h l) y -> ~ reach h y l.
Proof.
  intros R SE X. destruct (rep_sees h l v y R SE) as (v' & R' & L). destruct (rep_reach h y v' l X R') as (v'' & R'' & L'').
  rewrite (rep_fun h v _ _ R R'') in L. lia.
Qed.

(** ** What is carried along *)
Definition plive (s : st) (p : ptr) : Prop := forall x, preach (hp s) p x -> live s x.
Lemma lazy_sees h h' : lazy h h' -> forall x y, sees (h' x) y <-> sees (h x) y.
Proof.
  intros L x y. destruct (L x) as [->|[D ->]]; [tauto|]. unfold sees. cbn [unescape_cell w_obj c_dt c_kvs c_arr].
  rewrite D, snd_unescape_keys. tauto.
Qed.
Lemma lazy_preach h h' p x : lazy h h' -> preach h' p x <-> preach h p x.
Proof.
  intros L. unfold preach. split; intros (l & Q & R); exists l; (split; [auto|]); apply (reach_sees _ _ (lazy_sees h h' L)) in R; auto.
Qed.
Record carries (s s' : st) : Prop := {
  cr_reach : forall p x, plive s p -> preach (hp s') p x <-> preach (hp s) p x;
  cr_live : forall x, live s x -> live s' x;
  cr_rep : forall p v, plive s p -> nrep (hp s) p v -> nrep (hp s') p v;
  cr_cell : forall x, live s x -> hp s' x = hp s x \/ (c_dt (hp s x) = TObject /\ hp s' x = unescape_cell E (hp s x)) }.
Lemma carries_plive s s' p : carries s s' -> plive s p -> plive s' p.
Proof. intros C P x X. apply (cr_live _ _ C), P. apply (cr_reach _ _ C); auto. Qed.
Lemma carries_trans s1 s2 s3 : carries s1 s2 -> carries s2 s3 -> carries s1 s3.
Proof.
  intros A B. constructor.
  - intros p x P. rewrite (cr_reach _ _ B) by (eapply carries_plive; eauto). apply (cr_reach _ _ A); auto.
  - intros x X. apply (cr_live _ _ B), (cr_live _ _ A), X.
  - intros p v P R. apply (cr_rep _ _ B); [eapply carries_plive; eauto|]. apply (cr_rep _ _ A); auto.
  - intros x X. destruct (cr_cell _ _ A x X) as [Q|[D Q]], (cr_cell _ _ B x (cr_live _ _ A x X)) as [Q'|[D' Q']];
      rewrite Q'; rewrite Q in *; auto.
Qed.
Lemma carries_refl s : carries s s.
Proof. constructor; auto. tauto. Qed.
Lemma carries_lazy s s' : lazy (hp s) (hp s') -> rest_same s s' -> carries s s'.
Proof.
  intros L R. constructor.
  - intros p x _. apply lazy_preach; auto.
  - intros x X. apply (rest_live G s s' x R); auto.
  - intros p v _ X. eapply nrep_lazy; eauto.
  - intros x _. apply L.
Qed.
Lemma carries_clone s c w r s' : cloned s c w r s' -> carries s s'.
Proof.
  intros C.
  assert (Q : forall p, plive s p -> forall x, preach (hp s) p x -> hp s' x = hp s x).
  { intros p P x X. apply (k_frame _ _ _ _ _ C), P, X. }
  constructor.
  - intros p x P. specialize (Q p P). unfold preach in *.
    split; intros (l & -> & R); exists l; (split; [reflexivity|]);
      (assert (RS : forall y, reach (hp s') l y <-> reach (hp s) l y)
        by (apply reach_same; intros y Y; apply Q; exists l; auto)); apply RS; exact R.
  - apply (k_lives _ _ _ _ _ C).
  - intros p v P (v' & R & NV). exists v'. split; [|exact NV]. apply (rep_frame (hp s)); [exact R|exact (Q p P)].
  - intros x X. left. apply (k_frame _ _ _ _ _ C); auto.
Qed.
Lemma carries_src s s' p : carries s s' -> src_ok s p -> src_ok s' p.
Proof.
  intros C S0 l -> x X.
  assert (PL : plive s (Some l)). { intros y (m & Q & Y). injection Q as <-. apply (S0 l eq_refl y Y). }
  assert (X' : reach (hp s) l x).
  { destruct (proj1 (cr_reach _ _ C (Some l) x PL)) as (m & Q & Y); [exists l; auto|]. injection Q as <-. exact Y. }
  destruct (S0 l eq_refl x X') as [LV CN]. split; [apply (cr_live _ _ C); auto|].
  destruct (cr_cell _ _ C x LV) as [->|[D ->]]; [auto|]. cbn [unescape_cell w_obj c_dt]. exact CN.
Qed.
Lemma src_plive s p : src_ok s p -> plive s p.
Proof. intros S0 x (l & -> & X). apply (S0 l eq_refl x X). Qed.

(** ** One copy *)
Lemma clone_any s p w : wf s -> src_ok s p -> clonable w -> nrep (hp s) p w ->
  exists n r s', clone G n s p None = Ok (r, s') /\ wf s' /\ carries s s' /\ nrep (hp s') (Some r) (strip w) /\
    (forall x, reach (hp s') r x -> (x < 5)%nat \/ ((5 <= x)%nat /\ ~ live s x /\ live s' x)) /\ (r < nx s')%nat.
Proof.
  intros W SO CB (v' & R & NV).
  assert (CB' : clonable v') by (rewrite <- clonable_norm, NV, clonable_norm; exact CB).
  destruct (clones_all G v' CB') as (n & H). destruct (H n s p None (le_n n) W (ok_cache_none N s) SO R) as (r & s' & Q & C).
  exists n, r, s'. split; [exact Q|].
  destruct (k_tr _ _ _ _ _ C N N W (ok_cache_none N s)) as [T OK].
  split; [exact (tr_inv _ _ _ _ T)|]. split; [eapply carries_clone; eauto|].
  split; [exists (strip v'); split; [apply (k_rep _ _ _ _ _ C)|rewrite !norm_strip, NV; reflexivity]|].
  split; [apply (k_new _ _ _ _ _ C)|]. apply (OK r). constructor.
Qed.

(** ** The loops *)
Lemma any_equal_mono f : forall s p l j r, any_equal E f s p l j = Ok r -> forall f', (f <= f')%nat -> any_equal E f' s p l j = Ok r.
Proof.
  induction f as [|f IH]; intros s p l j r H [|f'] L; try discriminate; try lia. cbn [any_equal] in *.
  destruct (nth_error (c_arr (hp s l)) j); auto. apply bind_Ok in H as ([b s1] & H1 & H2).
  rewrite (equal_mono E G f f' s p p0 _ H1) by lia. cbn [bind]. destruct b; auto. apply (IH _ _ _ _ _ H2); lia.
Qed.
Lemma merge_arr_mono f : forall s l m i add r, merge_arr E G f s l m i add = Ok r ->
  forall f', (f <= f')%nat -> merge_arr E G f' s l m i add = Ok r.
Proof.
  induction f as [|f IH]; intros s l m i add r H [|f'] L; try discriminate; try lia. cbn [merge_arr] in *.
  destruct (nth_error (c_arr (hp s m)) i) as [p|]; auto. apply bind_Ok in H as ([b s1] & H1 & H2).
  rewrite (any_equal_mono f s p l 0 _ H1 f') by lia. cbn [bind]. destruct b; [apply (IH _ _ _ _ _ _ H2); lia|].
  apply bind_Ok in H2 as ([x s2] & H2 & H3). rewrite (clone_mono G f f' _ _ _ _ H2) by lia. cbn [bind]. apply (IH _ _ _ _ _ _ H3); lia.
Qed.

Lemma any_equal_spec w p l : forall vs s j, slots64 (hp s) -> c_dt (hp s l) = TArray -> nrep (hp s) p w ->
  Forall2 (nrep (hp s)) (skipn j (c_arr (hp s l))) vs -> Forall (decides E w) vs ->
  exists n b s', any_equal E n s p l j = Ok (b, s') /\ lazy (hp s) (hp s') /\ rest_same s s' /\
    (b = true <-> Exists (same E w) vs).
Proof.
  induction vs as [|v vs IH]; intros s j HS D RP F DV.
  - inversion F as [Q|]; subst. exists 1%nat, false, s. cbn [any_equal]. rewrite (skipn_nil_nth _ _ (eq_sym Q)).
    split; [auto|split; [apply lazy_refl|split; [apply rest_refl|]]]. split; [discriminate|]. intros X; inversion X.
  - inversion F as [|q ? rest ? RQ F' Q]; subst. symmetry in Q. apply skipn_hd in Q as [NQ Q]. subst rest.
    inversion DV as [|? ? (n0 & Dv) DV']; subst.
    destruct (Dv n0 s p q (le_n n0) HS RP RQ) as (b & s1 & E1 & L1 & V1).
    pose proof (equal_rest E n0 s p q b s1 E1) as RS. destruct b.
    + exists (S n0), true, s1. cbn [any_equal]. rewrite NQ, E1. cbn [bind]. split; [auto|split; [auto|split; [auto|]]].
      split; [|auto]. intros _. constructor. apply V1. auto.
    + destruct (lazy_dt E _ _ l L1) as (D1 & _ & A1).
      destruct (IH s1 (S j)) as (n1 & b & s2 & E2 & L2 & R2 & V2); auto.
      * eapply slots_lazy; eauto.
      * congruence.
      * eapply nrep_lazy; eauto.
      * rewrite A1. eapply F2_impl; [|exact F']. intros a c. apply nrep_lazy; auto.
      * exists (S (n0 + n1)), b, s2. cbn [any_equal]. rewrite NQ.
        rewrite (equal_mono E G n0 (n0 + n1) _ _ _ _ E1) by lia. cbn [bind].
        rewrite (any_equal_mono _ _ _ _ _ _ E2) by lia.
        split; [auto|split; [eapply lazy_trans; eauto|split; [eapply rest_trans; eauto|]]].
        rewrite V2. split; intros X; [apply Exists_cons_tl; auto|]. inversion X; subst; auto.
        match goal with Y : same E w v |- _ => apply V1 in Y; discriminate end.
Qed.

Lemma cell_arr s s' x : carries s s' -> live s x -> c_dt (hp s x) = TArray -> hp s' x = hp s x.
Proof. intros C L D. destruct (cr_cell _ _ C x L) as [Q|[Q _]]; [exact Q|congruence]. Qed.

Lemma merge_arr_spec l m vs : forall ws s i add, wf s -> slots64 (hp s) -> live s l -> live s m ->
  c_dt (hp s l) = TArray -> c_dt (hp s m) = TArray ->
  Forall2 (nrep (hp s)) (c_arr (hp s l)) vs -> Forall2 (nrep (hp s)) (skipn i (c_arr (hp s m))) ws ->
  (forall p, In p (c_arr (hp s l)) -> plive s p) -> (forall p, In p (c_arr (hp s m)) -> src_ok s p) ->
  Forall (fun w => Forall (decides E w) vs /\ clonable w) ws ->
  exists n new out s', merge_arr E G n s l m i add = Ok (add ++ new, s') /\ kept E vs ws out /\ wf s' /\ carries s s' /\
    Forall2 (fun p v => nrep (hp s') p v /\ (forall x, p = Some x -> (x < nx s')%nat) /\
      forall x, preach (hp s') p x -> (x < 5)%nat \/ ((5 <= x)%nat /\ ~ live s x /\ live s' x)) new (map strip out).
Proof.
  induction ws as [|w ws IH]; intros s i add W HS Ll Lm Dl Dm FV FW PL SO DW.
  - inversion FW as [Q|]; subst. exists 1%nat, [], [], s. cbn [merge_arr]. rewrite (skipn_nil_nth _ _ (eq_sym Q)).
    rewrite app_nil_r. split; [auto|split; [constructor|split; [auto|split; [apply carries_refl|constructor]]]].
  - inversion FW as [|p ? rest ? RP FW' Q]; subst. symmetry in Q. apply skipn_hd in Q as [NP Q]. subst rest.
    inversion DW as [|? ? [DV CW] DW']; subst.
    assert (IP : In p (c_arr (hp s m))) by (eapply nth_error_In; eauto).
    destruct (any_equal_spec w p l vs s 0%nat HS Dl RP FV DV) as (n1 & b & s1 & E1 & L1 & R1 & V1).
    pose proof (carries_lazy s s1 L1 R1) as C1.
    assert (OP : ok_ptr N s p). { intros x ->. split; [|intros []]. apply (SO _ IP x eq_refl x). constructor. }
    assert (W1 : wf s1).
    { assert (T : tr N N s s1). { eapply (tr_any_equal N N E); eauto. split; [apply Ll|intros []]. } apply T. }
    pose proof (cell_arr s s1 l C1 Ll Dl) as Ql. pose proof (cell_arr s s1 m C1 Lm Dm) as Qm.
    assert (HS1 : slots64 (hp s1)) by (eapply slots_lazy; eauto).
    destruct b.
    + destruct (IH s1 (S i) add) as (n2 & new & out & s' & E2 & K & W' & C2 & FN); auto.
      * apply (cr_live _ _ C1); auto.
      * apply (cr_live _ _ C1); auto.
      * congruence.
      * congruence.
      * rewrite Ql. eapply F2_impl; [|exact FV]. intros a c. apply nrep_lazy; auto.
      * rewrite Qm. eapply F2_impl; [|exact FW']. intros a c. apply nrep_lazy; auto.
      * rewrite Ql. intros q I. eapply carries_plive; eauto.
      * rewrite Qm. intros q I. eapply carries_src; eauto.
      * exists (S (n1 + n2)), new, out, s'. cbn [merge_arr]. rewrite NP.
        rewrite (any_equal_mono _ _ _ _ _ _ E1) by lia. cbn [bind]. rewrite (merge_arr_mono _ _ _ _ _ _ _ E2) by lia.
        split; [auto|split; [constructor; [apply V1; auto|auto]|split; [auto|split; [eapply carries_trans; eauto|]]]].
        eapply F2_impl; [|exact FN]. intros a c (A1 & A2 & A3). split; [auto|split; [auto|]]. intros x X.
        destruct (A3 x X) as [A|(A & B & C)]; auto. right. split; [auto|split; [|auto]]. intros LX. apply B, (cr_live _ _ C1), LX.
    + destruct (clone_any s1 p w W1 (carries_src _ _ _ C1 (SO _ IP)) CW (nrep_lazy E _ _ _ _ L1 RP))
        as (n2 & r & s2 & E2 & W2 & C2 & RR & NEW & RL).
      pose proof (carries_trans _ _ _ C1 C2) as C12.
      pose proof (cell_arr s s2 l C12 Ll Dl) as Ql2. pose proof (cell_arr s s2 m C12 Lm Dm) as Qm2.
      destruct (IH s2 (S i) (add ++ [Some r])) as (n3 & new & out & s' & E3 & K & W' & C3 & FN); auto.
      * eapply slots_clone; eauto.
      * apply (cr_live _ _ C12); auto.
      * apply (cr_live _ _ C12); auto.
      * congruence.
      * congruence.
      * rewrite Ql2. eapply Forall2_impl_in; [exact FV|]. intros a c I. apply (cr_rep _ _ C12). auto.
      * rewrite Qm2. eapply Forall2_impl_in; [exact FW'|]. intros a c I. apply (cr_rep _ _ C12). apply src_plive, SO.
        eapply In_skipn; exact I.
      * rewrite Ql2. intros q I. eapply carries_plive; eauto.
      * rewrite Qm2. intros q I. eapply carries_src; eauto.
      * exists (S (n1 + n2 + n3)), (Some r :: new), (w :: out), s'. cbn [merge_arr]. rewrite NP.
        rewrite (any_equal_mono _ _ _ _ _ _ E1) by lia. cbn [bind].
        rewrite (clone_mono G n2 (n1 + n2 + n3) _ _ _ _ E2) by lia. cbn [bind].
        rewrite (merge_arr_mono _ _ _ _ _ _ _ E3) by lia.
        split; [rewrite <- app_assoc; reflexivity|].
        split; [apply kept_take; [intros X; apply V1 in X; discriminate|auto]|].
        split; [auto|split; [eapply carries_trans; eauto|]].
        assert (PR : plive s2 (Some r)).
        { intros x (y & Q & X). injection Q as <-. destruct (NEW x X) as [A|(_ & _ & A)]; auto. apply const_live; auto. }
        cbn [map]. constructor.
        -- split; [apply (cr_rep _ _ C3); auto|]. split.
           ++ intros x Q. injection Q as <-. apply (cr_live _ _ C3). apply PR. exists r. split; [auto|constructor].
           ++ intros x X. apply (cr_reach _ _ C3) in X; auto. destruct X as (y & Q & X). injection Q as <-.
              destruct (NEW x X) as [A|(A & B & C)]; auto. right. split; [auto|split].
              ** intros LX. apply B, (cr_live _ _ C1), LX.
              ** apply (cr_live _ _ C3); auto.
        -- eapply F2_impl; [|exact FN]. intros a c (A1 & A2 & A3). split; [auto|split; [auto|]]. intros x X.
           destruct (A3 x X) as [A|(A & B & C)]; auto. right. split; [auto|split; [|auto]]. intros LX. apply B, (cr_live _ _ C12), LX.
Qed.

(** ** [MergeWith] on arrays *)
Lemma nrep_frame h h' p v : nrep h p v -> (forall x, preach h p x -> h' x = h x) -> nrep h' p v.
Proof. intros (v' & R & Q) F. exists v'. split; [|exact Q]. apply (rep_frame h); auto. Qed.
Lemma nrep_arr_intro h l vs : c_dt (h l) = TArray -> Forall2 (nrep h) (c_arr (h l)) vs -> nrep h (Some l) (VArray vs).
Proof.
  intros D F. assert (X : exists vs', Forall2 (rep h) (c_arr (h l)) vs' /\ map norm vs' = map norm vs).
  { clear D. induction F as [|a b la lb (v & R & Q) F (vs' & F' & Q')]; [exists []; split; constructor|].
    exists (v :: vs'). split; [constructor; auto|]. cbn. congruence. }
  destruct X as (vs' & F' & Q). exists (VArray vs'). split; [apply rep_arr; auto|]. cbn [HeapEqual.norm]. congruence.
Qed.

Theorem merge_arrays s l m vs ws fn : wf s -> slots64 (hp s) ->
  rep (hp s) (Some l) (VArray vs) -> rep (hp s) (Some m) (VArray ws) ->
  plive s (Some l) -> cloneable_graph s m ->
  Forall plain vs -> Forall plain ws -> Forall clonable ws ->
  Forall (fun w => Forall (arrays_match w) vs) ws ->
  exists n0, forall fuel, (n0 <= fuel)%nat -> exists new out s',
    MergeWith E G fuel s (Some l) (Some m) fn = Ok s' /\
    kept E vs ws out /\
    c_arr (hp s' l) = c_arr (hp s l) ++ new /\
    nrep (hp s') (Some l) (VArray (vs ++ map strip out)) /\
    (forall p x, In p new -> preach (hp s') p x -> (x < 5)%nat \/ ((5 <= x)%nat /\ ~ live s x /\ live s' x)) /\
    (forall x, live s x -> x <> l -> live s' x /\
      (hp s' x = hp s x \/ (c_dt (hp s x) = TObject /\ hp s' x = unescape_cell E (hp s x)))).
Proof.
  intros W HS RV RW PL CG PV PW CW AM.
  pose proof RV as RV0. apply rep_arr_inv in RV as (l' & Q & Dl & FV). injection Q as <-.
  apply rep_arr_inv in RW as (m' & Q & Dm & FW). injection Q as <-.
  assert (Ll : live s l) by (apply PL; exists l; split; [auto|constructor]).
  assert (Lm : live s m) by (apply CG; constructor).
  assert (L5 : (5 <= l)%nat) by (apply (good_5 s l W); auto).
  assert (NI : forall p, In p (c_arr (hp s l)) -> forall x, preach (hp s) p x -> x <> l).
  { intros p I x (y & -> & X) ->. apply (rep_acyclic (hp s) l _ y RV0); auto. unfold sees. rewrite Dl. exact I. }
  assert (PLA : forall p, In p (c_arr (hp s l)) -> plive s p).
  { intros p I x (y & -> & X). apply PL. exists l. split; [auto|]. eapply reach_trans; [apply reach_child|exact X].
    unfold sees. rewrite Dl. exact I. }
  assert (N0 : forall p v, rep (hp s) p v -> nrep (hp s) p v) by (intros p v R; exists v; auto).
  destruct (merge_arr_spec l m vs ws s 0%nat [] W HS Ll Lm Dl Dm) as (n & new & out & s' & E1 & K & W' & C & FN); auto.
  - eapply F2_impl; [|exact FV]. exact N0.
  - cbn [skipn]. eapply F2_impl; [|exact FW]. exact N0.
  - intros p I y -> x X. apply CG. eapply reach_trans; [apply reach_child|exact X]. unfold sees. rewrite Dm. exact I.
  - rewrite Forall_forall in *. intros w I. split; [|auto]. specialize (AM w I). rewrite Forall_forall in *. intros v J.
    apply equal_decides; auto.
  - exists n. intros fuel Fu.
    pose proof (cell_arr s s' l C Ll Dl) as Ql.
    assert (KEY : forall s2 : st, (forall x, hp s2 x = upd (hp s') l (w_arr (hp s l) (c_arr (hp s l) ++ new)) x) ->
      c_arr (hp s2 l) = c_arr (hp s l) ++ new /\
      nrep (hp s2) (Some l) (VArray (vs ++ map strip out)) /\
      (forall p x, In p new -> preach (hp s2) p x -> (x < 5)%nat \/ ((5 <= x)%nat /\ ~ live s x /\ live s' x))).
    { intros s2 H2.
      assert (FO : forall p, (forall x, preach (hp s') p x -> x <> l) -> forall x, preach (hp s') p x -> hp s2 x = hp s' x).
      { intros p P x X. rewrite H2. apply upd_other. apply (P x X). }
      assert (FA : forall p, (forall x, preach (hp s') p x -> x <> l) -> forall x, preach (hp s2) p x -> preach (hp s') p x).
      { intros p P x (y & -> & X). exists y. split; [auto|]. apply (reach_same (hp s') (hp s2) y); auto.
        intros z Z. apply (FO (Some y) P). exists y; auto. }
      assert (NN : forall p, In p new -> forall x, preach (hp s') p x -> x <> l).
      { intros p I x X ->. apply in_split in I as (a & b & ->). apply Forall2_app_inv_l in FN as (a' & b' & _ & FN & _).
        inversion FN as [|? v ? ? (_ & _ & A)]; subst. destruct (A l X) as [A1|(_ & A1 & _)]; [lia|contradiction]. }
      assert (Q2 : hp s2 l = w_arr (hp s l) (c_arr (hp s l) ++ new)) by (rewrite H2; apply upd_same).
      split; [rewrite Q2; reflexivity|]. split.
      - apply nrep_arr_intro; rewrite Q2; [exact Dl|]. cbn [w_arr c_arr]. apply Forall2_app.
        + eapply Forall2_impl_in; [exact FV|]. intros p v I R.
          apply (nrep_frame (hp s')); [apply (cr_rep _ _ C); auto|]. apply FO. intros x X.
          apply (cr_reach _ _ C) in X; auto. exact (NI p I x X).
        + eapply Forall2_impl_in; [exact FN|]. intros p v I (R & _). apply (nrep_frame (hp s')); [exact R|]. exact (FO p (NN p I)).
      - intros p x I X. apply (FA p (NN p I)) in X. clear NN. apply in_split in I as (a & b & ->). apply Forall2_app_inv_l in FN as (a' & b' & _ & FN & _).
        inversion FN as [|? v ? ? (_ & _ & A)]; subst. apply A; auto. }
    unfold MergeWith. rewrite Dl, Dm. change (negb (vt_eqb TArray TArray)) with false.
    change (vt_code TArray <? vt_code TArray) with false. change (vt_eqb TArray TObject) with false. cbn [orb].
    rewrite (merge_arr_mono _ _ _ _ _ _ _ E1) by lia. cbn [bind app].
    destruct new as [|p0 new].
    + exists [], out, s'.
      destruct (KEY s') as (K1 & K2 & K3).
      { intros x. rewrite app_nil_r. unfold upd. destruct (x =? l)%nat eqn:QX; [|reflexivity].
        apply Nat.eqb_eq in QX as ->. rewrite Ql. destruct (hp s l); reflexivity. }
      split; [auto|split; [auto|split; [auto|split; [auto|split; [auto|]]]]].
      intros x X _. split; [apply (cr_live _ _ C); auto|apply (cr_cell _ _ C); auto].
    + exists (p0 :: new), out. eexists. split; [reflexivity|].
      match goal with |- context [set_cell s' l ?c] => set (s2 := set_cell s' l c) end.
      destruct (KEY s2) as (K1 & K2 & K3). { intros x. unfold s2. cbn [set_cell hp]. rewrite Ql. reflexivity. }
      split; [auto|split; [auto|split; [auto|split; [auto|]]]].
      intros x X NX. split; [apply (cr_live _ _ C); auto|]. unfold s2. cbn [set_cell hp]. rewrite upd_other by auto. apply (cr_cell _ _ C); auto.
Qed.
End Merge.
