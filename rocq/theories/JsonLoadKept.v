(** Loading JSON into a value changes no other value in use. *)
From Coq Require Import String.
From Verif Require Import Base Values Tactics JsonModel JsonSpec HeapModel MsgLoadModel JsonLoadModel HeapSpec MsgLoadSpec JsonLoadSpec
  HeapBase HeapConf HeapGet HeapCalls HeapForce HeapTree HeapClone HeapBuild MsgLoadThms JsonLoadThms.

Section Kept.
Variable E : env.
Variable G : nat -> nat.
Notation N := none_set.
Hypothesis NE : num_env E.

Lemma value_kept s c b f s' y : wf s -> ok_cache N s c -> hj_value E G f s c b = Ok (s', y) -> kept s s'.
Proof.
  intros W OC H. pose proof (proj1 (jsim_all E G NE f) s c b W OC) as X.
  destruct (js_value E f b) as [[v t]|e| |]; try (rewrite H in X; discriminate X).
  - destruct X as (s2 & p & A & B). rewrite A in H. injection H as <- _. intros x L. apply (decoded_frame _ _ _ _ _ x B L).
  - destruct X as (s2 & A & B). rewrite A in H. injection H as <- _. exact B.
Qed.
Lemma value_lives s c b f s' p t : wf s -> ok_cache N s c -> hj_value E G f s c b = Ok (s', inr (p, t)) -> forall x, live s x -> live s' x.
Proof.
  intros W OC H. pose proof (proj1 (jsim_all E G NE f) s c b W OC) as X.
  destruct (js_value E f b) as [[v t']|e| |]; try (rewrite H in X; discriminate X).
  - destruct X as (s2 & q & A & B). rewrite A in H. injection H as <- _ _. intros x L. apply (decoded_frame _ _ _ _ _ x B L).
  - destruct X as (s2 & A & B). rewrite A in H. discriminate H.
Qed.
Lemma kept_set s s2 l c : kept s s2 -> kept_but s l (set_cell s2 l c).
Proof. intros K x L Q. cbn [set_cell hp]. rewrite upd_other by auto. apply K; auto. Qed.
Lemma kept_refl s : kept s s. Proof. intros x L. reflexivity. Qed.
Lemma kept_but_trans s l s2 s3 : (forall x, live s x -> live s2 x) -> kept_but s l s2 -> kept_but s2 l s3 -> kept_but s l s3.
Proof. intros L K1 K2 x X Q. rewrite K2 by auto. apply K1; auto. Qed.

Lemma hl_members_kept f : forall s l b s' e, wf s -> live s l -> (5 <= l)%nat -> hl_members E G f s l b = Ok (s', e) -> kept_but s l s'.
Proof.
  induction f as [|f IH]; intros s l b s' e W L L5; [discriminate|]. rewrite hl_members_S. cbv zeta.
  assert (ST : forall c er, Ok (set_cell s l c, er) = Ok (s', e) -> kept_but s l s').
  { intros c er Q. injection Q as <- _. apply kept_set, kept_refl. }
  destruct (skipWB b) as [[|x r1] sk]; [apply ST|].
  destruct (negb (x =? 34)); [apply ST|].
  destruct (parseJsonKey r1) as [[k b2]|er| |]; try discriminate; [|apply ST].
  destruct (skipWB b2) as [[|c3 r3] sk2]; [apply ST|].
  destruct (negb (c3 =? 58)); [apply ST|].
  set (b4 := fst (skipWB r3)). assert (OC : ok_cache N s (c_own (hp s l))) by (apply own_okc; auto).
  intros H. apply bind_ok in H as ([s2 y] & H1 & H). pose proof (value_kept _ _ _ _ _ _ W OC H1) as K.
  destruct y as [er|[p b5]]; [injection H as <- _; apply kept_set; exact K|].
  pose proof (value_lives _ _ _ _ _ _ _ W OC H1) as LV. cbv zeta in H.
  pose proof (kept_set s s2 l (push_kv G (hp s2 l) k p) K) as KB.
  destruct (proj1 (tr_hj N N E G (js_fuel b4)) s _ b4 s2 _ W OC H1) as [T OO].
  assert (OL : ok_loc N s2 l) by (split; [apply (LV l L)|intros []]).
  assert (W2 : wf s2) by apply T.
  pose proof (tr_push N N G s2 l k p W2 OL (OO _ _ eq_refl)) as T3.
  destruct (skipWB b5) as [[|c6 r6] sk3]; [injection H as <- _; exact KB|].
  destruct (c6 =? 44).
  { apply IH in H; [|apply T3|apply live_set_cell; auto|exact L5]. eapply kept_but_trans; [|exact KB|exact H].
    intros z Z. apply live_set_cell. auto. }
  destruct (c6 =? 125); injection H as <- _; exact KB.
Qed.
Lemma hl_elems_kept f : forall s l b s' e, wf s -> live s l -> (5 <= l)%nat -> hl_elems E G f s l b = Ok (s', e) -> kept_but s l s'.
Proof.
  induction f as [|f IH]; intros s l b s' e W L L5; [discriminate|]. rewrite hl_elems_S.
  set (b4 := fst (skipWB b)). assert (OC : ok_cache N s (c_own (hp s l))) by (apply own_okc; auto).
  intros H. apply bind_ok in H as ([s2 y] & H1 & H). pose proof (value_kept _ _ _ _ _ _ W OC H1) as K.
  destruct y as [er|[p b5]]; [injection H as <- _; intros x X _; apply K; auto|].
  pose proof (value_lives _ _ _ _ _ _ _ W OC H1) as LV. cbv zeta in H.
  pose proof (kept_set s s2 l (w_arr (hp s2 l) (c_arr (hp s2 l) ++ [p])) K) as KB.
  destruct (proj1 (tr_hj N N E G (js_fuel b4)) s _ b4 s2 _ W OC H1) as [T OO].
  assert (OL : ok_loc N s2 l) by (split; [apply (LV l L)|intros []]).
  assert (W2 : wf s2) by apply T.
  pose proof (tr_append N N s2 l p W2 OL (OO _ _ eq_refl)) as T3.
  destruct (skipWB b5) as [[|c6 r6] sk3]; [injection H as <- _; exact KB|].
  destruct (c6 =? 44).
  { apply IH in H; [|apply T3|apply live_set_cell; auto|exact L5]. eapply kept_but_trans; [|exact KB|exact H].
    intros z Z. apply live_set_cell. auto. }
  destruct (c6 =? 93); injection H as <- _; exact KB.
Qed.
Lemma jput_kept s l v : kept_but s l (jput s l v).
Proof.
  intros x _ Q. unfold jput, SetInt, SetDouble, ensure, Reset. destruct (ReadOnly l); cbn [set_cell hp];
    destruct v; cbn [set_cell hp]; repeat match goal with |- context [if ?b then _ else _] => destruct b end;
    cbn [set_cell hp]; rewrite ?upd_other by auto; reflexivity.
Qed.
(** The cells in use once the receiver was cleared. *)
Theorem load_kept s s1 l b s' e : wf s -> Clear s l = Ok s1 -> live s1 l -> (5 <= l)%nat -> h_LoadFromJson E G s l b = Ok (s', e) ->
  kept_but s1 l s'.
Proof.
  intros W CL L L5 H.
  assert (OL : ok_loc N s l). { split; [|intros []]. rewrite <- (Clear_nx s l s1 CL). apply L. }
  pose proof (tr_Clear N N s l s1 W OL CL) as T. assert (W1 : wf s1) by apply T.
  unfold h_LoadFromJson in H. rewrite CL in H. cbn [bind] in H.
  assert (ST : forall er, Ok (s1, er) = Ok (s', e) -> kept_but s1 l s').
  { intros er Q. injection Q as <- _. intros x X _. reflexivity. }
  destruct (fst (skipWB b)) as [|x r]; [exact (ST _ H)|]. unfold h_parseJson2Value in H.
  destruct (x =? 123).
  { destruct (skipWB r) as [[|c1 t] sk]; [exact (ST _ H)|]. destruct (c1 =? 125); [exact (ST _ H)|]. eapply hl_members_kept; eauto. }
  destruct (x =? 91).
  { destruct (skipWB r) as [[|c1 t] sk]; [exact (ST _ H)|]. destruct (c1 =? 93); [exact (ST _ H)|]. eapply hl_elems_kept; eauto. }
  destruct (if is_num_start x then _ else _) as [v|er| |]; try discriminate; [|exact (ST _ H)].
  injection H as <- _. apply jput_kept.
Qed.

(** What hangs below the receiver afterwards was not in use before. *)
Lemma hl_members_grown f : forall s1 s l c b s', wf s1 -> ok_cache N s1 c -> live s1 l -> (5 <= l)%nat ->
  grown s1 c l s -> c_own (hp s l) = c -> c_dt (hp s l) = TObject -> hl_members E G f s l b = Ok (s', None) -> grown s1 c l s'.
Proof.
  induction f as [|f IH]; intros s1 s l c b s' W1 OC L1 L5 GR OW D; [discriminate|]. rewrite hl_members_S. cbv zeta.
  destruct (skipWB b) as [[|x r1] sk]; [discriminate|].
  destruct (negb (x =? 34)); [discriminate|].
  destruct (parseJsonKey r1) as [[k b2]|er| |]; try discriminate.
  destruct (skipWB b2) as [[|c3 r3] sk2]; [discriminate|].
  destruct (negb (c3 =? 58)); [discriminate|].
  pose proof (grown_live _ _ _ _ L1 GR) as L. pose proof (grown_cache _ _ _ _ W1 OC L1 GR) as OCs.
  rewrite OW. set (b4 := fst (skipWB r3)).
  intros H. apply bind_ok in H as ([s2 y] & H1 & H).
  pose proof (proj1 (jsim_all E G NE (js_fuel b4)) s c b4 (gr_wf _ _ _ _ GR) OCs) as HV.
  destruct y as [er|[p b5]]; [discriminate H|]. cbv zeta in H.
  assert (DE : exists v, decoded s c v p s2).
  { destruct (js_value E (js_fuel b4) b4) as [[v t]|e| |]; try (rewrite H1 in HV; discriminate HV).
    - destruct HV as (s3 & q & A & B). rewrite A in H1. injection H1 as <- <- _. exists v. exact B.
    - destruct HV as (s3 & A & B). rewrite A in H1. discriminate H1. }
  destruct DE as (v & DE). destruct (decoded_frame _ _ _ _ _ l DE L) as [HR L2].
  destruct (push_fields G (hp s l) k p) as (P1 & P2 & P3).
  set (s3 := set_cell s2 l (push_kv G (hp s2 l) k p)) in *.
  assert (HR3 : hp s3 l = push_kv G (hp s l) k p). { unfold s3. cbn [set_cell hp]. rewrite upd_same, HR. reflexivity. }
  destruct (grow_step G s1 c l s v p s2 s3 W1 OC L1 L5 GR DE (stored_push G s2 l k p)) as (GR3 & _ & _).
  { rewrite HR3. unfold kid_ptrs. rewrite P3, D, P1, map_app. apply puts_app. }
  destruct (skipWB b5) as [[|c6 r6] sk3]; [discriminate|].
  destruct (c6 =? 44).
  { apply (IH s1 s3 l c r6 s' W1 OC L1 L5 GR3); auto.
    - rewrite HR3. unfold push_kv. destruct (c_spare (hp s l)); exact OW.
    - rewrite HR3, P3. exact D. }
  destruct (c6 =? 125); [injection H as <-; exact GR3|discriminate H].
Qed.
Lemma hl_elems_grown f : forall s1 s l c b s', wf s1 -> ok_cache N s1 c -> live s1 l -> (5 <= l)%nat ->
  grown s1 c l s -> c_own (hp s l) = c -> c_dt (hp s l) = TArray -> hl_elems E G f s l b = Ok (s', None) -> grown s1 c l s'.
Proof.
  induction f as [|f IH]; intros s1 s l c b s' W1 OC L1 L5 GR OW D; [discriminate|]. rewrite hl_elems_S.
  pose proof (grown_live _ _ _ _ L1 GR) as L. pose proof (grown_cache _ _ _ _ W1 OC L1 GR) as OCs.
  rewrite OW. set (b4 := fst (skipWB b)).
  intros H. apply bind_ok in H as ([s2 y] & H1 & H).
  pose proof (proj1 (jsim_all E G NE (js_fuel b4)) s c b4 (gr_wf _ _ _ _ GR) OCs) as HV.
  destruct y as [er|[p b5]]; [discriminate H|]. cbv zeta in H.
  assert (DE : exists v, decoded s c v p s2).
  { destruct (js_value E (js_fuel b4) b4) as [[v t]|e| |]; try (rewrite H1 in HV; discriminate HV).
    - destruct HV as (s3 & q & A & B). rewrite A in H1. injection H1 as <- <- _. exists v. exact B.
    - destruct HV as (s3 & A & B). rewrite A in H1. discriminate H1. }
  destruct DE as (v & DE). destruct (decoded_frame _ _ _ _ _ l DE L) as [HR L2].
  set (s3 := set_cell s2 l (w_arr (hp s2 l) (c_arr (hp s2 l) ++ [p]))) in *.
  assert (HR3 : hp s3 l = w_arr (hp s l) (c_arr (hp s l) ++ [p])). { unfold s3. cbn [set_cell hp]. rewrite upd_same, HR. reflexivity. }
  destruct (grow_step G s1 c l s v p s2 s3 W1 OC L1 L5 GR DE (stored_append G s2 l p)) as (GR3 & _ & _).
  { rewrite HR3. unfold kid_ptrs. cbn [w_arr c_dt c_arr]. rewrite D. apply puts_app. }
  destruct (skipWB b5) as [[|c6 r6] sk3]; [discriminate|].
  destruct (c6 =? 44).
  { apply (IH s1 s3 l c r6 s' W1 OC L1 L5 GR3); auto; rewrite HR3; auto. }
  destruct (c6 =? 93); [injection H as <-; exact GR3|discriminate H].
Qed.
Lemma sees_none h l x : (forall y, ~ sees (h l) y) -> reach h l x -> x = l.
Proof. intros NO R. apply reach_cases in R as [->|(y & S & _)]; [reflexivity|destruct (NO y S)]. Qed.
Lemma load_grown s s1 l b s' : wf s -> Clear s l = Ok s1 -> live s1 l -> (5 <= l)%nat -> h_LoadFromJson E G s l b = Ok (s', None) ->
  grown s1 (c_own (hp s1 l)) l s' \/ (forall y, ~ sees (hp s' l) y).
Proof.
  intros W CL L L5 H.
  assert (OL : ok_loc N s l). { split; [|intros []]. rewrite <- (Clear_nx s l s1 CL). apply L. }
  pose proof (tr_Clear N N s l s1 W OL CL) as T. assert (W1 : wf s1) by apply T.
  pose proof (Clear_cell s l s1 CL) as HC. destruct (clear_same (hp s l)) as (C1 & C2 & C3 & C4 & C5 & C6 & C7).
  assert (NO : forall y, ~ sees (hp s1 l) y).
  { intros y Y. unfold sees in Y. rewrite HC, C1, C4 in Y. destruct (c_dt (hp s l)) eqn:D; auto. rewrite C7 in Y by auto. destruct Y. }
  unfold h_LoadFromJson in H. rewrite CL in H. cbn [bind] in H.
  assert (ST : Ok (s1, @None gerr) = Ok (s', None) -> grown s1 (c_own (hp s1 l)) l s' \/ (forall y, ~ sees (hp s' l) y)).
  { intros Q. injection Q as <-. right. exact NO. }
  destruct (fst (skipWB b)) as [|x0 r]; [exact (ST H)|]. unfold h_parseJson2Value in H.
  assert (OC : ok_cache N s1 (c_own (hp s1 l))) by (apply own_okc; auto).
  assert (GR : grown s1 (c_own (hp s1 l)) l s1).
  { apply grown_refl; auto. }
  destruct (x0 =? 123).
  { destruct (skipWB r) as [[|c1 t] sk]; [discriminate H|]. destruct (c1 =? 125); [exact (ST H)|].
    destruct (vt_eqb (c_dt (hp s1 l)) TObject) eqn:DO.
    - apply (proj1 (HeapBase.vt_eqb_eq _ _)) in DO. left.
      eapply hl_members_grown; eauto.
    - apply vt_eqb_neq in DO. pose proof (hl_members_frame E G NE (js_fuel (c1 :: t)) s1 l (c1 :: t) [] W1 L L5) as X.
      right. intros y Y.
      assert (B : but_kvs (hp s1 l) (hp s' l)).
      { destruct (load_members E (js_fuel (c1 :: t)) (c1 :: t) []) as [kvs [[]|e| |]]; try (rewrite X in H; discriminate H);
          destruct X as (s2 & A & B); rewrite A in H; [injection H as <-; exact B|discriminate H]. }
      destruct B as (kvs & sp & B). apply (NO y). unfold sees in *. rewrite B in Y. cbn [w_obj c_dt c_kvs c_arr] in Y.
      destruct (c_dt (hp s1 l)); auto. congruence. }
  destruct (x0 =? 91).
  { destruct (skipWB r) as [[|c1 t] sk]; [discriminate H|]. destruct (c1 =? 93); [exact (ST H)|].
    destruct (vt_eqb (c_dt (hp s1 l)) TArray) eqn:DO.
    - apply (proj1 (HeapBase.vt_eqb_eq _ _)) in DO. left.
      eapply hl_elems_grown; eauto.
    - apply vt_eqb_neq in DO. pose proof (hl_elems_frame E G NE (js_fuel (c1 :: t)) s1 l (c1 :: t) [] W1 L L5) as X.
      right. intros y Y.
      assert (B : but_arr (hp s1 l) (hp s' l)).
      { destruct (load_elems E (js_fuel (c1 :: t)) (c1 :: t) []) as [kvs [[]|e| |]]; try (rewrite X in H; discriminate H);
          destruct X as (s2 & A & B); rewrite A in H; [injection H as <-; exact B|discriminate H]. }
      destruct B as (a & B). apply (NO y). unfold sees in *. rewrite B in Y. cbn [w_arr c_dt c_kvs c_arr] in Y.
      destruct (c_dt (hp s1 l)); auto. congruence. }
  destruct (if is_num_start x0 then _ else _) as [v|er| |]; try discriminate.
  injection H as <-. right. intros y Y. apply (NO y).
  assert (RS : forall t, t <> TObject -> t <> TArray -> ~ sees (reset_cell (hp s1 l) t) y).
  { intros t A B Z. unfold sees in Z. destruct t; cbn in Z; auto; congruence. }
  unfold jput, SetInt, SetDouble, ensure, Reset in Y. rewrite !not_shared in Y by auto.
  exfalso. destruct v; cbn [set_cell hp] in Y; rewrite ?upd_same in Y; auto; try (apply (NO y Y)); try (revert Y; apply RS; discriminate);
    try (destruct (vt_eqb (c_dt (hp s1 l)) TInt); cbn [set_cell hp] in Y; rewrite ?upd_same in Y; [apply (NO y); exact Y|]);
    try (change (is_dbl (c_dt (reset_cell (hp s1 l) TDateTime))) with true in Y; cbv iota in Y; cbn [set_cell hp] in Y; rewrite ?upd_same in Y);
    exact Y.
Qed.
Theorem load_new s s1 l b s' : wf s -> Clear s l = Ok s1 -> live s1 l -> (5 <= l)%nat -> h_LoadFromJson E G s l b = Ok (s', None) ->
  (forall x, reach (hp s') l x -> x = l \/ (x < 5)%nat \/ ((5 <= x)%nat /\ ~ live s1 x /\ live s' x)) /\ treelike (hp s') l.
Proof.
  intros W CL L L5 H. destruct (load_grown s s1 l b s' W CL L L5 H) as [GR|NO]; [split; apply (grown_here _ _ _ _ L L5 GR)|].
  split; [|apply treelike_leaf; exact NO]. intros x R. left. exact (sees_none _ _ _ NO R).
Qed.
(** The receiver keeps its type, or is a scalar with empty lists. *)
Lemma load_kind s s1 l b s' : wf s -> Clear s l = Ok s1 -> live s1 l -> (5 <= l)%nat -> h_LoadFromJson E G s l b = Ok (s', None) ->
  c_dt (hp s' l) = c_dt (hp s l) \/ (c_kvs (hp s' l) = [] /\ c_arr (hp s' l) = []).
Proof.
  intros W CL L L5 H.
  assert (OL : ok_loc N s l). { split; [|intros []]. rewrite <- (Clear_nx s l s1 CL). apply L. }
  pose proof (tr_Clear N N s l s1 W OL CL) as T. assert (W1 : wf s1) by apply T.
  pose proof (Clear_cell s l s1 CL) as HC. destruct (clear_same (hp s l)) as (C1 & _).
  rewrite <- C1, <- HC. clear C1 HC.
  unfold h_LoadFromJson in H. rewrite CL in H. cbn [bind] in H.
  assert (ST : Ok (s1, @None gerr) = Ok (s', None) -> c_dt (hp s' l) = c_dt (hp s1 l) \/ (c_kvs (hp s' l) = [] /\ c_arr (hp s' l) = [])).
  { intros Q. injection Q as <-. left. reflexivity. }
  destruct (fst (skipWB b)) as [|x0 r]; [exact (ST H)|]. unfold h_parseJson2Value in H.
  destruct (x0 =? 123).
  { destruct (skipWB r) as [[|c1 t] sk]; [discriminate H|]. destruct (c1 =? 125); [exact (ST H)|].
    pose proof (hl_members_frame E G NE (js_fuel (c1 :: t)) s1 l (c1 :: t) [] W1 L L5) as X.
    assert (B : but_kvs (hp s1 l) (hp s' l)).
    { destruct (load_members E (js_fuel (c1 :: t)) (c1 :: t) []) as [kvs [[]|e| |]]; try (rewrite X in H; discriminate H);
        destruct X as (s2 & A & B); rewrite A in H; [injection H as <-; exact B|discriminate H]. }
    destruct B as (kvs & sp & B). left. rewrite B. reflexivity. }
  destruct (x0 =? 91).
  { destruct (skipWB r) as [[|c1 t] sk]; [discriminate H|]. destruct (c1 =? 93); [exact (ST H)|].
    pose proof (hl_elems_frame E G NE (js_fuel (c1 :: t)) s1 l (c1 :: t) [] W1 L L5) as X.
    assert (B : but_arr (hp s1 l) (hp s' l)).
    { destruct (load_elems E (js_fuel (c1 :: t)) (c1 :: t) []) as [kvs [[]|e| |]]; try (rewrite X in H; discriminate H);
        destruct X as (s2 & A & B); rewrite A in H; [injection H as <-; exact B|discriminate H]. }
    destruct B as (a & B). left. rewrite B. reflexivity. }
  destruct (if is_num_start x0 then _ else _) as [v|er| |]; try discriminate.
  injection H as <-. unfold jput, SetInt, SetDouble, ensure, Reset. rewrite !not_shared by auto.
  destruct v; cbn [set_cell hp]; rewrite ?upd_same; auto.
  - destruct (vt_eqb (c_dt (hp s1 l)) TInt); cbn [set_cell hp]; rewrite ?upd_same; [left|right]; auto.
  - change (is_dbl (c_dt (reset_cell (hp s1 l) TDateTime))) with true. cbv iota. cbn [set_cell hp]. rewrite ?upd_same. right. auto.
Qed.
End Kept.
