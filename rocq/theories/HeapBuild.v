(** Building a value in new cells, child by child: what a decoder guarantees about the heap. *)
From Verif Require Import Base Values Tactics HeapModel MsgLoadModel HeapSpec MsgLoadSpec HeapBase HeapConf HeapGet HeapCalls HeapObj HeapForce HeapTree HeapClone.

Lemma shows_arr h l vs : c_dt (h l) = TArray -> Forall2 (shows h) (c_arr (h l)) vs -> shows h (Some l) (VArray vs).
Proof.
  intros D F. assert (Q : exists ws, Forall2 (rep h) (c_arr (h l)) ws /\ map low ws = vs).
  { induction F as [|p v ps vs (w & R & L) F (ws & A & B)]; [exists []; split; [constructor|reflexivity]|].
    exists (w :: ws). split; [constructor; auto|]. cbn [map]. congruence. }
  destruct Q as (ws & A & B). exists (VArray ws). split; [constructor; auto|]. cbn [low]. rewrite B. reflexivity.
Qed.
Definition kvR (R : ptr -> value -> Prop) (a : bytes * ptr) (b : bytes * value) : Prop :=
  fst a = fst b /\ R (snd a) (snd b).
Lemma shows_obj h l u kvs : c_dt (h l) = TObject -> c_unesc (h l) = u ->
  Forall2 (kvR (shows h)) (c_kvs (h l)) kvs -> shows h (Some l) (VObject u kvs).
Proof.
  intros D U F. assert (Q : exists ws, Forall2 (fun a b => fst a = fst b /\ rep h (snd a) (snd b)) (c_kvs (h l)) ws /\
     map (fun kv => (fst kv, low (snd kv))) ws = kvs).
  { induction F as [|[k p] [k' v] ps vs [Q (w & R & L)] F (ws & A & B)]; [exists []; split; [constructor|reflexivity]|].
    cbn [fst snd] in *. subst k'. exists ((k, w) :: ws). split; [constructor; auto|]. cbn [map fst snd]. congruence. }
  destruct Q as (ws & A & B). exists (VObject u ws). split; [apply rep_obj_intro; auto|]. cbn [low]. rewrite B. reflexivity.
Qed.

Section Build.
Variable E : env.
Variable G : nat -> nat.
Notation N := none_set.

(** [s2] is [s1] with a write of the pointer [p] into the cell [r]. *)
Record stored_at (s1 : st) (r : nat) (p : ptr) (s2 : st) : Prop := {
  so_frame : forall z, z <> r -> hp s2 z = hp s1 z;
  so_live : forall z, live s1 z -> live s2 z;
  so_tr : forall P PC, inv P PC s1 -> ok_loc P s1 r -> ok_ptr P s1 p -> tr P PC s1 s2;
  so_conf : forall P PC s0, conf P PC s0 s1 -> mine P s0 r -> conf P PC s0 s2 }.

Lemma stored_set s r p nc : c_dt nc = c_dt (hp s r) ->
  (forall P PC, ok_cell P PC s (hp s r) -> ok_ptr P s p -> ok_cell P PC s nc) -> stored_at s r p (set_cell s r nc).
Proof.
  intros D OK. constructor.
  - intros z Z. cbn [set_cell hp]. apply upd_other; auto.
  - intros z L. apply live_set_cell; auto.
  - intros P PC I O K. apply tr_write; auto. apply OK; auto. apply cell_ok_at; auto.
  - intros P PC s0 C M. apply conf_set; auto.
Qed.
Lemma stored_append s r p : stored_at s r p (set_cell s r (w_arr (hp s r) (c_arr (hp s r) ++ [p]))).
Proof. apply stored_set; [reflexivity|]. intros P PC A B. apply okc_app; auto. Qed.
Lemma stored_key s r k p : c_dt (hp s r) = TObject -> stored_at s r p (SetKeyValue E G s r k p).
Proof.
  intros D.
  assert (SH : exists c1 c2, SetKeyValue E G s r k p = set_cell (set_cell s r c1) r c2).
  { unfold SetKeyValue. rewrite D. change (vt_eqb TObject TArray) with false. change (vt_eqb TObject TObject) with true.
    cbn [andb]. unfold obj_index. destruct (index_by_name E (c_unesc (hp s r)) (c_kvs (hp s r)) k) as [[i|] [u kvs]]; eauto. }
  destruct SH as (c1 & c2 & Q).
  constructor.
  - rewrite Q. intros z Z. cbn [set_cell hp]. rewrite !upd_other by auto. reflexivity.
  - rewrite Q. intros z L. apply live_set_cell, live_set_cell; auto.
  - intros P PC I O K. apply tr_SetKeyValue; auto.
  - rewrite Q. intros P PC s0 C M. apply conf_set; auto. apply conf_set; auto.
Qed.

(** Storing a value built by a call in [r]. *)
Lemma fill_gen s c r w x s1 s2 : wf s -> ok_cache N s c -> live s r -> (5 <= r)%nat -> cloned s c w x s1 ->
  stored_at s1 r (Some x) s2 ->
  wf s2 /\ filled s c r s2 /\ kid s c r s2 x /\ rep (hp s2) (Some x) w /\ treelike (hp s2) x.
Proof.
  intros W OC L L5 CL ST.
  assert (NR : forall z, reach (hp s1) x z -> z <> r).
  { intros z R ->. destruct (k_new _ _ _ _ _ CL r R) as [Q|(_ & Q & _)]; [lia|auto]. }
  assert (FR : forall z, reach (hp s1) x z -> hp s2 z = hp s1 z).
  { intros z R. apply (so_frame _ _ _ _ ST). auto. }
  pose proof (reach_same _ _ _ FR) as RS.
  assert (TR : forall P PC, inv P PC s -> ok_cache PC s c -> ok_loc P s r ->
     tr P PC s s1 /\ tr P PC s1 s2 /\ (forall z, reach (hp s1) x z -> ok_loc P s1 z)).
  { intros P PC I O K. destruct (k_tr _ _ _ _ _ CL P PC I O) as [T1 T2].
    split; [exact T1|]. split; [|exact T2]. apply (so_tr _ _ _ _ ST).
    - apply T1.
    - eapply ok_loc_tr; eauto.
    - apply ok_ptr_some. apply T2. constructor. }
  split; [apply (TR N N W OC); split; [apply L|intros []]|]. split; [|split].
  - constructor.
    + intros z Z. apply (so_live _ _ _ _ ST). apply (k_lives _ _ _ _ _ CL); auto.
    + intros z Z Q. rewrite (so_frame _ _ _ _ ST) by auto. apply (k_frame _ _ _ _ _ CL); auto.
    + intros P PC s0 K O M. apply (so_conf _ _ _ _ ST); auto. apply (k_conf _ _ _ _ _ CL P PC s0 K O).
    + intros P PC I O K. destruct (TR P PC I O K) as (A & B & _). eapply tr_trans; eauto.
  - constructor.
    + intros z R. apply RS in R. destruct (k_new _ _ _ _ _ CL z R) as [Q|(Q1 & Q2 & Q3)]; [left; auto|right].
      split; [auto|split; [auto|apply (so_live _ _ _ _ ST); auto]].
    + intros P PC s0 K O M z R. apply RS in R. eapply (k_conf _ _ _ _ _ CL P PC s0 K O); auto.
    + intros P PC I O K z R. apply RS in R. destruct (TR P PC I O K) as (_ & T2 & T3).
      eapply ok_loc_tr; [exact T2|]. exact (T3 z R).
  - split; [|eapply treelike_frame; [exact FR|apply (k_tree _ _ _ _ _ CL)]].
    apply (rep_frame (hp s1)); [apply (k_rep _ _ _ _ _ CL)|]. intros z (l & Q & R). injection Q as <-. auto.
Qed.

(** The container [r], made in [s1], after some children were stored in it. *)
Record grown (s1 : st) (c : option nat) (r : nat) (s : st) : Prop := {
  gr_wf : wf s;
  gr_fill : filled s1 c r s;
  gr_kid : forall y, sees (hp s r) y -> kid s1 c r s y;
  gr_bush : bushes (hp s) (kid_ptrs (hp s r)) }.

Lemma grown_live s1 c r s : live s1 r -> grown s1 c r s -> live s r.
Proof. intros L GR. apply (fl_lives _ _ _ _ (gr_fill _ _ _ _ GR)); auto. Qed.
Lemma grown_cache s1 c r s : wf s1 -> ok_cache N s1 c -> live s1 r -> grown s1 c r s -> ok_cache N s c.
Proof.
  intros W OC L GR. apply (ok_cache_tr N N s1 s); [|exact OC]. apply (fl_tr _ _ _ _ (gr_fill _ _ _ _ GR)); auto.
  split; [apply L|intros []].
Qed.

(** Nothing in use changes but [l]; what is under [l] afterwards is new and meets no cell twice. *)
Definition only_here (s : st) (l : nat) (s' : st) : Prop :=
  (forall x, live s x -> x <> l -> hp s' x = hp s x) /\ (forall x, live s x -> live s' x) /\
  (forall x, reach (hp s') l x -> x = l \/ (x < 5)%nat \/ ((5 <= x)%nat /\ ~ live s x /\ live s' x)) /\
  treelike (hp s') l.
Lemma grown_here s c l s' : live s l -> (5 <= l)%nat -> grown s c l s' -> only_here s l s'.
Proof.
  intros L L5 [W F K B]. split; [|split; [|split]].
  - intros x X Q. apply (fl_frame _ _ _ _ F); auto.
  - apply (fl_lives _ _ _ _ F).
  - intros x R. apply reach_cases in R as [->|(y & S & R)]; [left; reflexivity|right].
    apply (kd_new _ _ _ _ _ (K y S) x R).
  - apply treelike_kids; [exact B|]. intros k Sk X. destruct (kd_new _ _ _ _ _ (K k Sk) l X) as [Y|(_ & Y & _)]; [|exact (Y L)].
    exact (Nat.lt_irrefl l (Nat.lt_le_trans _ _ _ Y L5)).
Qed.
Lemma leaf_here s l s' : (forall x, x <> l -> hp s' x = hp s x) -> (forall x, live s x -> live s' x) ->
  (forall y, ~ sees (hp s' l) y) -> only_here s l s'.
Proof.
  intros F L NO. split; [auto|]. split; [exact L|]. split; [|apply treelike_leaf; exact NO].
  intros x R. left. apply reach_cases in R as [->|(y & S & _)]; [reflexivity|destruct (NO y S)].
Qed.
Lemma here_before s s1 l s' : (forall x, x <> l -> hp s1 x = hp s x) -> (forall x, live s x -> live s1 x) ->
  only_here s1 l s' -> only_here s l s'.
Proof.
  intros F L (A1 & A2 & A3 & A4). split; [|split; [auto|split; [|exact A4]]].
  - intros x X Q. rewrite A1 by auto. apply F; auto.
  - intros x R. destruct (A3 x R) as [Q|[Q|(Q1 & Q2 & Q3)]]; auto. right. right. split; [exact Q1|split; [auto|exact Q3]].
Qed.

(** What a decoding call returns: nil and nothing done, or a new value. *)
Definition decoded (s : st) (c : option nat) (v : value) (p : ptr) (s' : st) : Prop :=
  match p with
  | None => v = VNilP /\ s' = s
  | Some r => exists w, low w = v /\ cloned s c w r s'
  end.
Lemma decoded_frame s c v p s' x : decoded s c v p s' -> live s x -> hp s' x = hp s x /\ live s' x.
Proof.
  destruct p as [r|]; cbn [decoded]; [|intros [_ ->]; auto]. intros (w & _ & CL) L.
  split; [apply (k_frame _ _ _ _ _ CL)|apply (k_lives _ _ _ _ _ CL)]; auto.
Qed.

Lemma bush_step s1 c r s p s3 : wf s -> live s1 r -> (5 <= r)%nat -> grown s1 c r s -> filled s c r s3 ->
  puts (kid_ptrs (hp s r)) p (kid_ptrs (hp s3 r)) -> (forall y, p = Some y -> kid s c r s3 y /\ treelike (hp s3) y) ->
  bushes (hp s3) (kid_ptrs (hp s3 r)).
Proof.
  intros W L1 L5 [_ F K BU] F3 PU KX.
  assert (FO : forall k z, In (Some k) (kid_ptrs (hp s r)) -> reach (hp s) k z -> hp s3 z = hp s z).
  { intros k z I. apply (kid_after G s1 c r s s3 k W L1 L5 F F3). apply K, kid_sees. exact I. }
  apply (bushes_puts _ (kid_ptrs (hp s r)) p); [eapply bushes_frame; [exact FO|exact BU]|exact PU|intros x Q; apply KX; exact Q|].
  intros x k z Q I Rk Rx. assert (Rk' : reach (hp s) k z) by (apply (reach_same _ (hp s3) _ (fun z' => FO k z' I)) in Rk; exact Rk).
  apply kid_sees in I. destruct (kd_new _ _ _ _ _ (K k I) z Rk') as [Y|(_ & _ & Y)]; [exact Y|].
  destruct (kd_new _ _ _ _ _ (proj1 (KX x Q)) z Rx) as [Z|(_ & Z & _)]; [exact Z|contradiction].
Qed.
Lemma grow_step s1 c r s v p s2 s3 : wf s1 -> ok_cache N s1 c -> live s1 r -> (5 <= r)%nat ->
  grown s1 c r s -> decoded s c v p s2 -> stored_at s2 r p s3 ->
  puts (kid_ptrs (hp s r)) p (kid_ptrs (hp s3 r)) ->
  grown s1 c r s3 /\ shows (hp s3) p v /\
  (forall q u, (forall y, q = Some y -> sees (hp s r) y) -> shows (hp s) q u -> shows (hp s3) q u).
Proof.
  intros W1 OC L1 L5 GR DE ST PU.
  assert (SE : forall y, sees (hp s3 r) y -> p = Some y \/ sees (hp s r) y).
  { intros y Y. apply kid_sees in Y. destruct (puts_in _ _ _ _ PU Y) as [Q|Q]; [left; auto|right; apply kid_sees; exact Q]. }
  pose proof (grown_live _ _ _ _ L1 GR) as L. pose proof (grown_cache _ _ _ _ W1 OC L1 GR) as OCs.
  destruct GR as [W F K BU].
  assert (X : wf s3 /\ filled s c r s3 /\ (forall y, p = Some y -> kid s c r s3 y /\ treelike (hp s3) y) /\ shows (hp s3) p v).
  { destruct p as [x|]; cbn [decoded] in DE.
    - destruct DE as (w & LW & CL). destruct (fill_gen s c r w x s2 s3 W OCs L L5 CL ST) as (A & B & C & D & D').
      split; [exact A|]. split; [exact B|]. split; [intros y Q; injection Q as <-; split; [exact C|exact D']|]. exists w. auto.
    - destruct DE as [-> ->].
      assert (T : forall P PC, inv P PC s -> ok_loc P s r -> tr P PC s s3).
      { intros P PC I O. apply (so_tr _ _ _ _ ST); auto. apply ok_ptr_none. }
      split; [apply (T N N W); split; [apply L|intros []]|]. split; [|split].
      + constructor.
        * apply (so_live _ _ _ _ ST).
        * intros z Z Q. apply (so_frame _ _ _ _ ST); auto.
        * intros P PC s0 C _ M. apply (so_conf _ _ _ _ ST); auto.
        * intros P PC I _ O. apply T; auto.
      + intros y Q; discriminate.
      + exists VNilP. split; [constructor|reflexivity]. }
  destruct X as (W3 & F3 & KX & SX).
  assert (OLD : forall y, sees (hp s r) y -> kid s1 c r s3 y /\ (forall z, reach (hp s) y z -> hp s3 z = hp s z)).
  { intros y Y. apply (kid_after G s1 c r s s3 y W L1 L5 F F3). auto. }
  split; [|split; [exact SX|]].
  - constructor; [exact W3|eapply filled_trans; eauto| |].
    + intros y Y. destruct (SE y Y) as [Q|Q].
      * eapply kid_before; [exact F|]. apply KX; auto.
      * apply OLD; auto.
    + apply (bush_step s1 c r s p s3); auto. constructor; auto.
  - intros q u Q (w & R & LW). exists w. split; [|exact LW]. apply (rep_frame (hp s)); auto.
    intros z (y & QY & Z). apply (OLD y (Q y QY)); auto.
Qed.

(** The container is complete. [c'] is the cache the children were taken from. *)
Lemma finish2 s c c' w r s1 s2 : base s c r s1 ->
  (forall P PC s0, conf P PC s0 s -> from_ok PC s0 c -> from_ok PC s0 c') ->
  (forall P PC, inv P PC s -> ok_cache PC s c -> ok_cache PC s1 c') ->
  filled s1 c' r s2 -> rep (hp s2) (Some r) w ->
  (forall y, sees (hp s2 r) y -> kid s1 c' r s2 y) -> bushes (hp s2) (kid_ptrs (hp s2 r)) -> cloned s c w r s2.
Proof.
  intros B FC OC F R K BU. constructor; auto.
  - intros x L. apply (fl_lives _ _ _ _ F), (b_lives _ _ _ _ B); auto.
  - intros x L. rewrite (fl_frame _ _ _ _ F); [apply (b_frame _ _ _ _ B); auto|apply (b_lives _ _ _ _ B); auto|].
    intros ->. apply (b_new _ _ _ _ B); auto.
  - intros x X. apply reach_cases in X as [->|(y & Sy & X)].
    + right. split; [apply (b_5 _ _ _ _ B)|split; [apply (b_new _ _ _ _ B)|]]. apply (fl_lives _ _ _ _ F), (b_live _ _ _ _ B).
    + destruct (kd_new _ _ _ _ _ (K y Sy) x X) as [L|(L1 & L2 & L3)]; [left; auto|right].
      split; [auto|split; [|auto]]. intros L. apply L2, (b_lives _ _ _ _ B); auto.
  - intros P PC s0 C FO. destruct (b_conf _ _ _ _ B P PC s0 C FO) as [C1 M]. pose proof (FC P PC s0 C FO) as FO'.
    split; [apply (fl_conf _ _ _ _ F); auto|]. intros x X. apply reach_cases in X as [->|(y & Sy & X)]; [auto|].
    apply (kd_conf _ _ _ _ _ (K y Sy) P PC s0); auto.
  - intros P PC I O. destruct (b_tr _ _ _ _ B P PC I O) as [T1 L1].
    pose proof (OC P PC I O) as O1.
    pose proof (fl_tr _ _ _ _ F P PC (proj1 T1) O1 L1) as T2. split; [eapply tr_trans; eauto|].
    intros x X. apply reach_cases in X as [->|(y & Sy & X)]; [eapply ok_loc_tr; eauto|].
    apply (kd_tr _ _ _ _ _ (K y Sy) P PC); auto. apply T1.
  - apply treelike_kids; [exact BU|]. intros k Sk X. destruct (kd_new _ _ _ _ _ (K k Sk) r X) as [Y|(_ & Y & _)].
    + exact (Nat.lt_irrefl r (Nat.lt_le_trans _ _ _ Y (b_5 _ _ _ _ B))).
    + apply Y, (b_live _ _ _ _ B).
Qed.

(** The children of a value made without a cache come from the cache made with it. *)
Lemma kids_cache_ok s c t r s1 : wf s -> ok_cache N s c -> getValue G s c t = (r, s1) ->
  let c' := kids_cache s1 c r in
  (forall P PC s0, conf P PC s0 s -> from_ok PC s0 c -> from_ok PC s0 c') /\
  (forall P PC, inv P PC s -> ok_cache PC s c -> ok_cache PC s1 c').
Proof.
  intros W OC GV. cbv zeta. split.
  - intros P PC s0 C FO. destruct c as [k|]; [exact FO|]. cbn [kids_cache].
    cbn [getValue] in GV. apply pair_equal_spec in GV as [<- <-]. cbn [hp]. rewrite upd_same. cbn [c_own].
    intros k Q. injection Q as <-. right. apply (f_nc _ _ _ _ C).
  - intros P PC I O. pose proof (tr_getValue P PC G s c t I O) as T. rewrite GV in T. cbv zeta in T. cbn [fst snd] in T.
    destruct T as (T & OL & _). destruct c as [k|]; cbn [kids_cache]; [exact (ok_cache_tr P PC _ _ _ T O)|].
    apply (own_ok P PC); [apply T|exact OL].
Qed.

Lemma grown_start s c t r s1 : wf s -> ok_cache N s c -> getValue G s c t = (r, s1) ->
  base s c r s1 /\ clean (hp s1 r) t /\ wf s1 /\ ok_cache N s1 (kids_cache s1 c r) /\
  grown s1 (kids_cache s1 c r) r s1.
Proof.
  intros W OC GV. destruct (get_base G s c t r s1 W OC GV) as [B CL].
  destruct (b_tr _ _ _ _ B N N W OC) as [T _]. assert (W1 : wf s1) by apply T.
  split; [exact B|]. split; [exact CL|]. split; [exact W1|].
  split; [apply (proj2 (kids_cache_ok s c t r s1 W OC GV) N N); auto|].
  constructor; [exact W1|apply filled_refl| |apply bush_leaf; intros y Y; exact (clean_leaf _ _ y CL Y)].
  intros y Y. exfalso. exact (clean_leaf _ _ y CL Y).
Qed.
Lemma grown_done s c t r s1 s2 v : wf s -> ok_cache N s c -> getValue G s c t = (r, s1) ->
  grown s1 (kids_cache s1 c r) r s2 -> shows (hp s2) (Some r) v -> decoded s c v (Some r) s2.
Proof.
  intros W OC GV GR (w & R & LW). exists w. split; [exact LW|].
  destruct (grown_start s c t r s1 W OC GV) as (B & _). destruct (kids_cache_ok s c t r s1 W OC GV) as [F O].
  apply (finish2 s c (kids_cache s1 c r) w r s1 s2); auto; apply GR.
Qed.

(** Scalars: one cell. *)
Lemma one_cell s c t nc v r s1 : wf s -> ok_cache N s c -> getValue G s c t = (r, s1) ->
  (forall P PC s', ok_cell P PC s' (hp s1 r) -> ok_cell P PC s' nc) -> c_dt nc = t ->
  (forall y, ~ sees nc y) -> shows (upd (hp s1) r nc) (Some r) v ->
  decoded s c v (Some r) (set_cell s1 r nc).
Proof.
  intros W OC GV OK D NS (w & R & LW). exists w. split; [exact LW|].
  destruct (get_base G s c t r s1 W OC GV) as [B CL].
  apply (finish s c w r s1 _ B).
  - apply filled_set; auto. rewrite D. symmetry. apply CL.
  - exact R.
  - intros y Y. cbn [set_cell hp] in Y. rewrite upd_same in Y. destruct (NS y Y).
  - apply bush_leaf. intros y Y. cbn [set_cell hp] in Y. rewrite upd_same in Y. destruct (NS y Y).
Qed.
Lemma shared_const s c l v : wf s -> (l < 5)%nat -> shows (hp s) (Some l) v -> decoded s c v (Some l) s.
Proof.
  intros W L (w & R & LW). exists w. split; [exact LW|].
  assert (NS : forall y, ~ sees (hp s l) y).
  { intros y. unfold sees. rewrite (i_const _ _ _ W l L). destruct l as [|[|[|[|[|]]]]]; cbn; auto. }
  constructor; auto.
  - intros x X. apply reach_leaf in X; auto. subst; auto.
  - intros P PC s0 C FO. split; auto. intros x X. apply reach_leaf in X; auto. subst; auto.
  - intros P PC I O. split; [apply tr_refl; auto|]. intros x X. apply reach_leaf in X; auto. subst.
    eapply const_ok; eauto.
  - apply treelike_leaf; auto.
Qed.

(** [FreeValue] does not panic in a well-formed state. *)
Lemma free_total s r : wf s -> ok_loc N s r -> exists s', FreeValue s (Some r) = Ok s'.
Proof.
  intros W O. unfold FreeValue.
  assert (CL : forall s0 l, wf s0 -> ok_loc N s0 l -> exists s1, Clear s0 l = Ok s1).
  { intros s0 l W0 O0. unfold Clear. destruct (c_own (hp s0 l)) as [k|] eqn:Q; [|eexists; reflexivity].
    destruct (own_ok N N s0 l W0 O0 k Q) as [K _]. destruct (i_cache _ _ _ W0 k K) as (_ & NE & _).
    unfold cache_reset. destruct (ca_slots (cs s0 k)); [congruence|]. eexists; reflexivity. }
  destruct (CL s r W O) as [s1 Q]. rewrite Q. cbn [bind]. cbv zeta.
  destruct (c_own (hp s1 r)) as [k|]; [|eexists; reflexivity]. cbn [cache_reset bind]. eexists; reflexivity.
Qed.

(** ** [SetKeyValue] on the heap and on trees *)
Section Key.
Variable R : ptr -> value -> Prop.
Notation kvR := (kvR R).
Lemma find_key_rel l m name : Forall2 kvR l m -> find_key E l name = find_key E m name.
Proof.
  intros F. induction F as [|[k p] [k' v] l m [Q _] F IH]; [reflexivity|]. cbn [fst] in Q. subst k'.
  cbn [find_key]. rewrite IH. reflexivity.
Qed.
Lemma unescape_rel u l m : Forall2 kvR l m -> Forall2 kvR (unescape_keys E u l) (unescape_keys E u m).
Proof.
  intros F. unfold unescape_keys. destruct u; auto.
  induction F as [|[k p] [k' v] l m [Q1 Q2] F IH]; constructor; auto. cbn [fst snd] in *. subst. split; auto.
Qed.
Lemma index_rel u l m name : Forall2 kvR l m ->
  fst (index_by_name E u l name) = fst (index_by_name E u m name) /\
  fst (snd (index_by_name E u l name)) = fst (snd (index_by_name E u m name)) /\
  Forall2 kvR (snd (snd (index_by_name E u l name))) (snd (snd (index_by_name E u m name))).
Proof.
  intros F. pose proof (unescape_rel u l m F) as FU. unfold index_by_name.
  rewrite (find_key_rel _ _ name F), (find_key_rel _ _ name FU).
  destruct (negb u && no_backslash name); [destruct (find_key E m name)|]; cbn [fst snd]; auto.
Qed.
Lemma set_val_cons {A} i (x : A) kv m : set_val (S i) x (kv :: m) = kv :: set_val i x m.
Proof. unfold set_val. cbn [nth_error set_nth]. destruct (nth_error m i) as [[k y]|]; reflexivity. Qed.
Lemma set_val_rel i p v l m : Forall2 kvR l m -> R p v -> Forall2 kvR (set_val i p l) (set_val i v m).
Proof.
  intros F RP. revert i. induction F as [|[k a] [k' b] l m [Q1 Q2] F IH]; intros i.
  - unfold set_val. destruct i; constructor.
  - cbn [fst snd] in *. subst k'. destruct i as [|i].
    + constructor; [split; auto|auto].
    + rewrite !set_val_cons. constructor; [split; auto|auto].
Qed.
End Key.

Lemma push_fields c k p : c_kvs (push_kv G c k p) = c_kvs c ++ [(k, p)] /\ c_unesc (push_kv G c k p) = c_unesc c /\
  c_dt (push_kv G c k p) = c_dt c.
Proof. unfold push_kv. destruct (c_spare c); repeat split. Qed.

(** The cell after [SetKeyValue], for any reading of pointers as values. *)
Lemma set_key_cell (R : ptr -> value -> Prop) s r k p v u kvs : c_dt (hp s r) = TObject -> c_unesc (hp s r) = u ->
  Forall2 (kvR R) (c_kvs (hp s r)) kvs -> R p v ->
  exists u' kvs', set_key_value E (VObject u kvs) k v = VObject u' kvs' /\
    c_dt (hp (SetKeyValue E G s r k p) r) = TObject /\ c_unesc (hp (SetKeyValue E G s r k p) r) = u' /\
    Forall2 (kvR R) (c_kvs (hp (SetKeyValue E G s r k p) r)) kvs' /\
    puts (map snd (c_kvs (hp s r))) p (map snd (c_kvs (hp (SetKeyValue E G s r k p) r))).
Proof.
  intros D U F RP. unfold SetKeyValue. rewrite D. change (vt_eqb TObject TArray) with false.
  change (vt_eqb TObject TObject) with true. cbn [andb]. unfold obj_index. rewrite U.
  unfold set_key_value, obj_set.
  destruct (index_rel R u _ _ k F) as (I1 & I2 & I3).
  pose proof (snd_index_by_name E u (c_kvs (hp s r)) k) as SN.
  destruct (index_by_name E u (c_kvs (hp s r)) k) as [i [u1 l1]]. destruct (index_by_name E u kvs k) as [i' [u2 l2]].
  cbn [fst snd] in *. subst i' u2. destruct i as [i|].
  - exists u1, (set_val i v l2). split; [reflexivity|]. cbn [set_cell hp]. rewrite !upd_same. cbn [w_obj c_dt c_unesc c_kvs].
    split; [exact D|]. split; [reflexivity|]. split; [apply set_val_rel; auto|].
    rewrite map_snd_set_val, SN. apply puts_set.
  - exists u1, (l2 ++ [(k, v)]). split; [reflexivity|]. cbn [set_cell hp]. rewrite !upd_same.
    destruct (push_fields (w_obj (hp s r) u1 l1 (c_spare (hp s r))) k p) as (P1 & P2 & P3). rewrite P1, P2, P3.
    cbn [w_obj c_dt c_unesc c_kvs]. split; [exact D|]. split; [reflexivity|]. split.
    + apply Forall2_app; auto. constructor; [split; auto|constructor].
    + rewrite map_app, SN. apply puts_app.
Qed.

(** The first key stored in a value that is neither an object nor an array turns it into an object. *)
Lemma first_key_eq s r k p : c_dt (hp s r) <> TArray -> c_dt (hp s r) <> TObject ->
  SetKeyValue E G s r k p = SetKeyValue E G (Reset s r TObject) r k p \/ ReadOnly r = true.
Proof.
  intros D1 D2. unfold SetKeyValue.
  assert (Q1 : vt_eqb (c_dt (hp s r)) TArray = false) by (destruct (c_dt (hp s r)); auto; congruence).
  assert (Q2 : vt_eqb (c_dt (hp s r)) TObject = false) by (destruct (c_dt (hp s r)); auto; congruence).
  rewrite Q1, Q2. cbn [andb]. unfold Reset. destruct (ReadOnly r); [right; reflexivity|left].
  cbn [set_cell hp]. rewrite upd_same. cbn [reset_cell c_dt]. change (vt_eqb TObject TArray) with false.
  change (vt_eqb TObject TObject) with true. cbn [andb]. reflexivity.
Qed.
Lemma not_shared r : (5 <= r)%nat -> ReadOnly r = false.
Proof. intros L. destruct r as [|[|[|[|[|r]]]]]; try lia. reflexivity. Qed.
Lemma stored_first s r k p : (5 <= r)%nat -> c_dt (hp s r) <> TArray -> c_dt (hp s r) <> TObject ->
  stored_at s r p (SetKeyValue E G s r k p) /\
  forall (R : ptr -> value -> Prop) v, R p v ->
    exists u' kvs', set_key_value E (VObject false []) k v = VObject u' kvs' /\
    c_dt (hp (SetKeyValue E G s r k p) r) = TObject /\ c_unesc (hp (SetKeyValue E G s r k p) r) = u' /\
    Forall2 (kvR R) (c_kvs (hp (SetKeyValue E G s r k p) r)) kvs' /\
    puts [] p (map snd (c_kvs (hp (SetKeyValue E G s r k p) r))).
Proof.
  intros L5 D1 D2. destruct (first_key_eq s r k p D1 D2) as [Q|Q]; [|rewrite not_shared in Q by auto; discriminate].
  assert (RS : Reset s r TObject = set_cell s r (reset_cell (hp s r) TObject)) by (unfold Reset; rewrite not_shared by auto; auto).
  assert (HR : hp (Reset s r TObject) r = reset_cell (hp s r) TObject) by (rewrite RS; cbn [set_cell hp]; apply upd_same).
  assert (DR : c_dt (hp (Reset s r TObject) r) = TObject) by (rewrite HR; reflexivity).
  pose proof (stored_key (Reset s r TObject) r k p DR) as ST. split.
  - constructor.
    + intros z Z. rewrite Q. rewrite (so_frame _ _ _ _ ST) by auto. rewrite RS. cbn [set_cell hp]. apply upd_other; auto.
    + intros z Z. rewrite Q. apply (so_live _ _ _ _ ST). rewrite RS. apply live_set_cell; auto.
    + intros P PC I O K. apply tr_SetKeyValue; auto.
    + intros P PC s0 C M. rewrite Q. apply (so_conf _ _ _ _ ST); auto. rewrite RS. apply conf_set; auto.
  - intros R v RP. rewrite Q.
    destruct (set_key_cell R (Reset s r TObject) r k p v false []) as (u' & kvs' & A & B & C & D & F); auto.
    + rewrite HR. reflexivity.
    + rewrite HR. constructor.
    + exists u', kvs'. do 4 (split; [assumption|]). rewrite HR in F. exact F.
Qed.

(** A value made in memory no one uses: no later call on other values changes it. *)
Lemma fresh_confined s uc w r s' : wf s -> (uc = None \/ uc = Some None) ->
  cloned (snd (cache_of s uc)) (fst (cache_of s uc)) w r s' ->
  inv (made (nx s) (nx s')) (made (nc s) (nc s')) s' /\
  (forall x, reach (hp s') r x -> (x < 5)%nat \/ made (nx s) (nx s') x) /\
  forall os s'', runs E G (made (nx s) (nx s')) s' os s'' -> rep (hp s'') (Some r) w.
Proof.
  intros W UC B. destruct (cache_of_same G s uc W) as (HP & LV & LV' & W1 & OC).
  assert (C0 : conf N N s (snd (cache_of s uc)) /\ from_ok N s (fst (cache_of s uc))).
  { destruct UC as [->| ->]; cbn [cache_of getCache fst snd].
    - split; [apply (conf_refl G); intros k x []|intros k K; discriminate].
    - split; [|intros k K; injection K as <-; right; lia].
      constructor; cbn [hp nx cs nc pl]; auto; try lia.
      + intros k K _. apply upd_other. lia.
      + intros k x [[]|M] K X. assert (k = nc s) by lia. subst. rewrite upd_same in X. cbn [ca_slots] in X. apply In_seq_ge in X. right; lia. }
  destruct (k_conf _ _ _ _ _ B N N s (proj1 C0) (proj2 C0)) as [C1 CL].
  assert (W' : wf s') by (apply (k_tr _ _ _ _ _ B N N W1 OC)).
  assert (IV : inv (made (nx s) (nx s')) (made (nc s) (nc s')) s').
  { apply (inv_ext (since (nx s) (nx s') N) (since (nc s) (nc s') N)).
    - intros x. unfold since, made, none_set. tauto.
    - intros x. unfold since, made, none_set. tauto.
    - apply (conf_inv G); auto. }
  assert (IN : forall x, reach (hp s') r x -> (x < 5)%nat \/ made (nx s) (nx s') x).
  { intros x X. destruct (CL x X) as [Q|[[]|Q]]; auto. right. split; [auto|].
    destruct (k_new _ _ _ _ _ B x X) as [L|(_ & _ & L)]; [pose proof (i_nx _ _ _ W'); lia|apply L]. }
  split; [exact IV|]. split; [exact IN|]. intros os s'' RU.
  eapply (protected_value E G _ _ s' r w os s'' IV); eauto. apply (k_rep _ _ _ _ _ B).
Qed.
End Build.
