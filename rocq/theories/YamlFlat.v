(** Flat mappings. *)
From Verif Require Import Base Values Tactics HeapModel HeapSpec HeapBase HeapConf HeapGet ApiSpec HeapMap
  HeapCalls HeapObj YamlModel YamlSpec YamlThms.

(** ** The text of a line *)
Lemma is_sp_iff c : is_sp c = true <-> In c [32; 10; 13].
Proof.
  unfold is_sp. rewrite !orb_true_iff, !Z.eqb_eq. cbn [In]. intuition.
Qed.
Lemma drop_sp_hd b : ~ In (hd 0 b) [32; 10; 13] -> drop_sp b = b.
Proof.
  intros H. destruct b as [|c b]; [reflexivity|]. cbn [drop_sp hd] in *. destruct (is_sp c) eqn:Q; auto.
  apply is_sp_iff in Q. contradiction.
Qed.
Lemma hd_rev (b : bytes) : hd 0 (rev b) = last b 0.
Proof.
  induction b as [|c b IH] using rev_ind; [reflexivity|]. rewrite rev_app_distr, last_last. reflexivity.
Qed.
Lemma trim_id b : trimmed b -> trim b = b.
Proof.
  intros [H1 H2]. unfold trim. rewrite (drop_sp_hd b H1). rewrite drop_sp_hd; [apply rev_involutive|].
  rewrite hd_rev. exact H2.
Qed.
Lemma hd_app (a b : bytes) : a <> [] -> hd 0 (a ++ b) = hd 0 a.
Proof. destruct a; [congruence|reflexivity]. Qed.
Lemma last_app (a b : bytes) : b <> [] -> last (a ++ b) 0 = last b 0.
Proof.
  intros N. induction a as [|c a IH]; [reflexivity|]. cbn [app]. rewrite <- IH.
  destruct (a ++ b) eqn:Q; [|reflexivity]. apply app_eq_nil in Q as [_ Q]. congruence.
Qed.
Lemma index_byte_at (a b : bytes) c : ~ In c a -> index_byte (a ++ c :: b) c = Some (List.length a).
Proof.
  induction a as [|x a IH]; intros N; cbn [app index_byte].
  - rewrite Z.eqb_refl. reflexivity.
  - destruct (Z.eqb_spec x c) as [->|Q]; [exfalso; apply N; left; auto|].
    rewrite IH by (intros X; apply N; right; auto). reflexivity.
Qed.
Lemma index_hash_none b : no_comment b -> index_hash b = None.
Proof.
  induction b as [|c b IH]; intros N; cbn [index_hash]; [reflexivity|].
  rewrite IH by (intros x y Q; apply (N (c :: x) y); rewrite Q; reflexivity).
  destruct (Z.eqb_spec c 32) as [->|]; [|reflexivity]. destruct b as [|c' b]; [reflexivity|].
  destruct (Z.eqb_spec c' 35) as [->|]; [|reflexivity]. exfalso. apply (N [] b). reflexivity.
Qed.
Lemma no_comment_app a b : no_comment a -> no_comment b -> ~ (last a 0 = 32 /\ hd 0 b = 35) -> no_comment (a ++ b).
Proof.
  intros NA NB NJ x y Q. revert x Q NA NJ. induction a as [|c a IH]; intros x Q NA NJ; cbn [app] in Q.
  - exact (NB x y Q).
  - destruct x as [|c' x]; cbn [app] in Q.
    + injection Q as -> Q. destruct a as [|c' a]; cbn [app] in Q.
      * apply NJ. rewrite Q. split; reflexivity.
      * injection Q as -> Q. apply (NA [] a). reflexivity.
    + injection Q as -> Q. apply (IH x Q).
      * intros x' y' Q'. apply (NA (c' :: x') y'). rewrite Q'. reflexivity.
      * intros [J1 J2]. destruct a as [|c'' a].
        -- cbn in J1. discriminate.
        -- apply NJ. split; [exact J1|exact J2].
Qed.
Lemma lead_blanks n b : hd 0 b <> 32 -> lead (blanks n ++ b) = n.
Proof.
  intros H. induction n as [|n IH]; cbn [blanks repeat app lead].
  - destruct b as [|c b]; [reflexivity|]. cbn [lead hd] in *. destruct (Z.eqb_spec c 32); [contradiction|reflexivity].
  - cbn [Z.eqb Pos.eqb]. f_equal. exact IH.
Qed.
Lemma skip_blanks n b : skipn n (blanks n ++ b) = b.
Proof. induction n as [|n IH]; [reflexivity|exact IH]. Qed.

Lemma split_kv_text k v : plain_key k -> v <> [] -> trimmed v -> splitKv (k ++ [58; 32] ++ v) = (k, v, true).
Proof.
  intros (K1 & [K2 K2'] & _ & K3 & _) V1 [V2 V2']. unfold splitKv. cbv zeta.
  assert (T : trim (k ++ [58; 32] ++ v) = k ++ [58; 32] ++ v).
  { apply trim_id. split.
    - rewrite hd_app by auto. exact K2.
    - rewrite last_app by discriminate. rewrite last_app by auto. exact V2'. }
  rewrite T. cbn [app]. rewrite index_byte_at by auto.
  replace (S (List.length k)) with (List.length (k ++ [58])) by (rewrite app_length; cbn; lia).
  replace (k ++ 58 :: 32 :: v) with ((k ++ [58]) ++ 32 :: v) by (rewrite <- app_assoc; reflexivity).
  rewrite skipn_app, skipn_all, Nat.sub_diag. cbn [app skipn]. rewrite Z.eqb_refl.
  rewrite <- app_assoc. rewrite firstn_app, firstn_all, Nat.sub_diag. cbn [firstn]. rewrite app_nil_r.
  rewrite !trim_id by (split; auto). reflexivity.
Qed.
Lemma split_kv_line k v : plain_key k -> plain_value v -> splitKv (k ++ [58; 32] ++ v) = (k, v, true).
Proof. intros PK (V1 & V2 & _). apply split_kv_text; auto. Qed.

Lemma tr_Clear_any s l s1 : Clear s l = Ok s1 -> nx s1 = nx s /\ nc s1 = nc s.
Proof.
  unfold Clear. intros H. apply bind_ok in H as (s2 & H1 & H). injection H as <-. cbn [nx nc set_cell].
  destruct (c_own (hp s l)); [|injection H1 as <-; auto]. unfold cache_reset in H1.
  repeat match type of H1 with context [match ?x with _ => _ end] => destruct x end; try discriminate; injection H1 as <-; auto.
Qed.

Section Flat.
Variable E : env.
Variable G : nat -> nat.
Variable pick : st -> option nat.
Variable cf : nat.
Hypothesis EO : env_ok E.
Notation same := (key_match E).
Notation pairs := (pairs E).
Notation N := none_set.

(** A new key of an object. *)
Lemma set_new s l name t c : good_obj s l -> distinct_keys same (pairs s l) -> ok_cache N s c ->
  find_key E (pairs s l) name = None ->
  exists x s2, SetKeyCached E G s l name t c = Ok (x, s2) /\ good_obj s2 l /\
    pairs s2 l = pairs s l ++ [(name, Some x)] /\ ok_cache N s2 c /\ live s2 x /\ x <> l /\ (5 <= x)%nat /\
    clean (hp s2 x) t /\ (forall y, live s y -> y <> l -> hp s2 y = hp s y) /\ (forall y, live s y -> live s2 y) /\ ~ live s x.
Proof.
  intros Gd D OC FK. pose proof Gd as (W & L & T & SF).
  assert (H : exists x s2, SetKeyCached E G s l name t c = Ok (x, s2) /\ live s2 x /\ x <> l /\ (5 <= x)%nat /\
    clean (hp s2 x) t /\ (forall y, live s y -> y <> l -> hp s2 y = hp s y) /\ (forall y, live s y -> live s2 y) /\ ~ live s x).
  { unfold SetKeyCached. rewrite T. change (vt_eqb TObject TArray) with false.
    change (vt_eqb TObject TObject) with true. cbn [andb]. cbv zeta.
    destruct (obj_index_spec E EO s l name D) as (u' & kvs' & H1 & H2 & H3 & HN & H4).
    pose proof (tr_obj_index N N E s l name W (ok_of_live _ _ L)) as T2.
    destruct (obj_index E s l name) as [ri s2]. cbn [fst snd] in *. rewrite FK in H2. subst ri.
    assert (W2 : wf s2) by (apply T2).
    assert (OC2 : ok_cache N s2 c) by (exact (ok_cache_tr N N _ _ _ T2 OC)).
    pose proof (getValue_got G s2 c t W2 OC2) as GV. destruct (getValue G s2 c t) as [r s3]. cbn [fst snd] in GV.
    assert (LV : forall y, live s y <-> live s2 y) by (intros y; subst s2; reflexivity).
    exists r, (set_cell s3 l (push_kv G (hp s3 l) name (Some r))).
    assert (RL : r <> l) by (intros ->; apply (g_new _ _ _ _ GV), LV; auto).
    split; [reflexivity|]. split; [exact (g_live _ _ _ _ GV)|]. split; [exact RL|]. split; [exact (g_5 _ _ _ _ GV)|].
    split; [cbn [hp set_cell]; rewrite upd_other by auto; exact (g_clean _ _ _ _ GV)|].
    split; [|split].
    - intros y Ly Ny. cbn [hp set_cell]. rewrite upd_other by auto.
      rewrite (proj1 (got_frame _ _ _ _ y GV (proj1 (LV y) Ly))). rewrite H1. cbn [hp set_cell]. apply upd_other. auto.
    - intros y Ly. exact (g_lives _ _ _ _ GV y (proj1 (LV y) Ly)).
    - rewrite LV. exact (g_new _ _ _ _ GV). }
  destruct H as (x & s2 & H & A). exists x, s2. split; [exact H|].
  destruct (set_cached_spec E G EO s l name t c x s2 Gd D OC H) as [G2 P2]. rewrite FK in P2.
  split; [exact G2|]. split; [exact P2|]. split; [|exact A].
  exact (ok_cache_tr N N _ _ _ (proj1 (tr_SetKeyCached N N E G s l name t c x s2 W (ok_of_live _ _ L) OC H)) OC).
Qed.

(** A plain value becomes the scalar it denotes. *)
Lemma psv_plain p s x v : plain_value v -> wf s -> live s x -> (5 <= x)%nat -> c_dt (hp s x) = TString ->
  exists s', parseStringValue E G cf 1 p s x v = Ok (p, s') /\ wf s' /\
    (forall y, live s y -> live s' y) /\ (forall y, y <> x -> hp s' y = hp s y) /\ nx s' = nx s /\ nc s' = nc s /\
    rep (hp s') (Some x) (scalar E v).
Proof.
  intros (V1 & _ & _ & _ & V2 & V3 & _ & V4 & V5) W L X5 T. pose proof (ok_of_live s x L) as OX.
  assert (RO : ReadOnly x = false) by (apply ReadOnly_ge; auto).
  assert (SB : forall b, exists s', Ok (p, SetBool s x b) = Ok (p, s') /\ wf s' /\
    (forall y, live s y -> live s' y) /\ (forall y, y <> x -> hp s' y = hp s y) /\ nx s' = nx s /\ nc s' = nc s /\
    rep (hp s') (Some x) (if b then VTrue else VFalse)).
  { intros b. exists (SetBool s x b). split; [reflexivity|]. split; [apply (tr_SetBool N N s x b W OX)|].
    unfold SetBool, Reset. rewrite RO. split; [auto|]. split; [intros y Ny; apply upd_other; auto|]. do 2 (split; [reflexivity|]).
    destruct b; constructor; cbn [hp set_cell]; rewrite upd_same; apply dt_reset. }
  unfold scalar. cbn [parseStringValue]. change b_true with [116; 114; 117; 101]. change b_false with [102; 97; 108; 115; 101].
  destruct (beq v [116; 114; 117; 101]); [apply (SB true)|]. destruct (beq v [102; 97; 108; 115; 101]); [apply (SB false)|].
  destruct (x_parsefloat E v) as [f|].
  { exists (SetDouble s x f). split; [reflexivity|]. split; [apply (tr_SetDouble N N s x f W OX)|].
    unfold SetDouble, Reset. rewrite RO, T. change (is_dbl TString) with false. cbv zeta. split; [auto|].
    split; [intros y Ny; cbn [hp set_cell]; rewrite !upd_other by auto; auto|]. do 2 (split; [reflexivity|]).
    cbn [hp set_cell].
    match goal with |- rep ?h _ _ => assert (Q : f = c_sv (h x)) by (rewrite upd_same; reflexivity); rewrite Q at 2; apply rep_dbl end.
    rewrite upd_same. cbn [w_sv c_dt]. rewrite upd_same. apply dt_reset. }
  assert (STR : exists s', Ok (p, SetString s x v) = Ok (p, s') /\ wf s' /\
    (forall y, live s y -> live s' y) /\ (forall y, y <> x -> hp s' y = hp s y) /\ nx s' = nx s /\ nc s' = nc s /\
    rep (hp s') (Some x) (VString v)).
  { exists (SetString s x v). split; [reflexivity|]. split; [apply (tr_SetString N N s x v W OX)|].
    unfold SetString, ensure. rewrite T. change (vt_eqb TString TString) with true. cbv zeta. split; [auto|].
    split; [intros y Ny; cbn [hp set_cell]; rewrite !upd_other by auto; auto|]. do 2 (split; [reflexivity|]).
    cbn [hp set_cell].
    match goal with |- rep ?h _ _ => assert (Q : v = c_str (h x)) by (rewrite upd_same; reflexivity); rewrite Q at 2; apply rep_str end.
    rewrite upd_same. exact T. }
  destruct v as [|c v]; [congruence|]. cbv zeta. cbn [hd] in *. set (e := last (c :: v) 0) in *.
  destruct ((c =? 123) && (e =? 125)) eqn:B1.
  { apply andb_true_iff in B1 as [B1 B2]. apply Z.eqb_eq in B1, B2. exfalso; apply V4; auto. }
  destruct ((c =? 91) && (e =? 93)) eqn:B2.
  { apply andb_true_iff in B2 as [B2 B3]. apply Z.eqb_eq in B2, B3. exfalso; apply V5; auto. }
  destruct (Z.eqb_spec c 38); [contradiction|]. destruct (Z.eqb_spec c 42); [contradiction|]. exact STR.
Qed.

Lemma rep_scalar h h' x v : rep h (Some x) (scalar E v) -> h' x = h x -> rep h' (Some x) (scalar E v).
Proof.
  unfold scalar. destruct (beq _ _); [|destruct (beq _ _); [|destruct (x_parsefloat E v)]]; intros R Q;
    inversion R; subst.
  - constructor. rewrite Q. auto.
  - constructor. rewrite Q. auto.
  - rewrite <- Q in *. constructor. auto.
  - rewrite <- Q in *. constructor. auto.
Qed.

(** The object built so far. *)
Record built (s : st) (r : nat) (kvs : list (bytes * bytes)) : Prop := {
  b_good : good_obj s r;
  b_pairs : Forall2 (fun kv pr => fst pr = fst kv /\ exists x, snd pr = Some x /\ live s x /\ x <> r /\
                       rep (hp s) (Some x) (scalar E (snd kv))) kvs (pairs s r) }.

Lemma built_keys s r kvs : built s r kvs -> map fst (pairs s r) = map fst kvs.
Proof.
  intros [_ F]. induction F as [|kv pr kvs prs (Q & _) F IH]; cbn [map]; [reflexivity|]. exact (f_equal2 cons Q IH).
Qed.
Lemma distinct_map {A B} (m : list (bytes * A)) (m' : list (bytes * B)) : map fst m = map fst m' ->
  distinct_keys same m -> distinct_keys same m'.
Proof.
  revert m'; induction m as [|[k x] m IH]; intros [|[k' x'] m'] Q D; try discriminate; [constructor|].
  cbn [map fst] in Q. injection Q as <- Q. inversion D; subst. constructor; [|apply IH; auto].
  cbn [fst] in *. rewrite Forall_forall in *. intros [k2 x2] I2. cbn [fst].
  apply (in_map fst) in I2. rewrite <- Q in I2. apply in_map_iff in I2 as ([k3 x3] & Q3 & I3). cbn [fst] in Q3. subst.
  exact (H1 _ I3).
Qed.

(** One more pair. *)
Lemma built_more s r kvs k v c p : built s r kvs -> plain_value v -> ok_cache N s c ->
  distinct_keys same (kvs ++ [(k, v)]) ->
  exists x s1 s', SetKeyCached E G s r k TString c = Ok (x, s1) /\
    parseStringValue E G cf 1 p s1 x v = Ok (p, s') /\ built s' r (kvs ++ [(k, v)]) /\ ok_cache N s' c.
Proof.
  intros B PV OC D. pose proof (built_keys _ _ _ B) as BK. destruct B as [Gd F].
  assert (D0 : distinct_keys same (pairs s r)).
  { apply (distinct_map kvs); auto. clear - D. induction kvs as [|[k0 v0] kvs IH]; [constructor|].
    cbn [app] in D. inversion D; subst. constructor; [|apply IH; auto].
    rewrite Forall_forall in *. intros y Iy. apply H1. apply in_or_app; auto. }
  assert (FK : find_key E (pairs s r) k = None).
  { apply find_key_none'. intros k' x' I'. apply (in_map fst) in I'. rewrite BK in I'. cbn [fst] in I'.
    clear - D I'. induction kvs as [|[k0 v0] kvs IH]; [contradiction|]. cbn [app] in D. inversion D; subst.
    destruct I' as [I'|I'].
    - cbn [fst] in I'. subst. rewrite Forall_forall in H1. apply (H1 (k, v)). apply in_or_app; right; left; auto.
    - apply IH; auto. }
  destruct (set_new s r k TString c Gd D0 OC FK) as (x & s1 & H1 & G1 & P1 & OC1 & L1 & XR & X5 & CL & FR & LV & NL).
  pose proof G1 as (W1 & LR1 & T1 & SF1).
  assert (TX : c_dt (hp s1 x) = TString) by apply CL.
  destruct (psv_plain p s1 x v PV W1 L1 X5 TX) as (s' & H2 & W' & LV' & FR' & NX & NC & RP).
  exists x, s1, s'. split; [exact H1|]. split; [exact H2|].
  assert (HR : hp s' r = hp s1 r) by (apply FR'; auto).
  split.
  - constructor.
    + split; [exact W'|]. split; [apply LV'; auto|]. rewrite HR. auto.
    + unfold HeapCalls.pairs. rewrite HR. change (unescape_keys E (c_unesc (hp s1 r)) (c_kvs (hp s1 r))) with (pairs s1 r).
      rewrite P1. apply Forall2_app.
      * clear - F FR FR' LV LV' XR NL. induction F as [|kv pr kvs prs (Q & y & Q1 & Q2 & Q3 & Q4) F IH]; constructor; auto.
        split; auto. exists y. split; auto. split; [apply LV'; auto|]. split; auto.
        eapply rep_scalar; [exact Q4|]. rewrite FR' by (intros ->; auto). apply FR; auto.
      * constructor; [|constructor]. split; [reflexivity|]. exists x. split; [reflexivity|]. split; [apply LV'; auto|]. split; auto.
  - intros k' Q. destruct (OC1 k' Q). split; auto. rewrite NC. auto.
Qed.

Lemma merge_plain p s l k v : plain_key k -> mergeObj G cf p s l k v = Ok (None, false, s).
Proof.
  intros (_ & _ & _ & _ & _ & _ & _ & K). unfold mergeObj. destruct (beq k b_merge) eqn:Q; [|reflexivity].
  apply beq_eq in Q. contradiction.
Qed.

(** The line reaches [parseObject]. *)
Lemma line_object p s n k v : plain_key k -> plain_value v ->
  parseLine E G pick cf p s (flat_line n (k, v)) (lead (flat_line n (k, v))) =
    (let z := Z.of_nat n in
     let lsp := match stack p with
                | m :: _ => if first_el p && y_map m then last_sp p + 2 else last_sp p
                | [] => last_sp p
                end in
     let p1 := if z <? lsp then set_stack p (unwind (popLast (stack p) 2) z)
               else if lsp =? z then set_stack p (popLast (stack p) 1) else p in
     do (e, p2, s2) <- parseObject E G pick cf p1 s (k ++ [58; 32] ++ v) z;
     Ok (e, set_last p2 z, s2)).
Proof.
  intros PK PV. pose proof PK as (K1 & [K2 K2'] & K3 & K4 & K5 & K7 & K8 & K9). pose proof PV as (V1 & [V2 V2'] & V3 & V4 & V5 & V6 & V7 & V8).
  unfold parseLine, flat_line. cbn [fst snd].
  assert (HD : hd 0 (k ++ [58; 32] ++ v) = hd 0 k) by (apply hd_app; auto).
  rewrite lead_blanks by (rewrite HD; intros Q; apply K2; rewrite Q; left; auto).
  rewrite skip_blanks.
  assert (IH : index_hash (k ++ [58; 32] ++ v) = None).
  { apply index_hash_none. apply no_comment_app; auto.
    - apply no_comment_app; auto.
      + intros x y Q. destruct x as [|a [|b x]]; try discriminate. injection Q as _ _ Q. destruct x; discriminate.
      + intros [_ Q]. contradiction.
    - intros [Q _]. apply K2'. rewrite Q. left; auto. }
  destruct k as [|c k]; [congruence|]. cbn [app]. cbn [hd] in *.
  destruct (Z.eqb_spec c 35); [contradiction|]. cbn [app] in IH. rewrite IH. cbv zeta.
  destruct (Z.eqb_spec c 45); [contradiction|]. reflexivity.
Qed.

(** The parser state between the lines. *)
Definition between (p : yp) (n : nat) (r : nat) : Prop :=
  last_sp p = Z.of_nat n /\ y_root p = Some r /\ exists x, stack p = [mkNode false (Z.of_nat n) x; mkNode false (-1) r].

Lemma first_line p s n k v r : stack p = [mkNode false (-1) r] -> y_root p = Some r -> last_sp p = -1 ->
  built s r [] -> ok_cache N s (y_cache p) -> plain_key k -> plain_value v ->
  exists p' s', parseLine E G pick cf p s (flat_line n (k, v)) (lead (flat_line n (k, v))) = Ok (None, p', s') /\
    built s' r [(k, v)] /\ between p' n r /\ y_cache p' = y_cache p /\ ok_cache N s' (y_cache p').
Proof.
  intros ST RT LS B OC PK PV. rewrite line_object by auto. rewrite ST, LS. cbv zeta. cbn [y_map]. rewrite andb_false_r.
  destruct (Z.ltb_spec (Z.of_nat n) (-1)); [lia|]. destruct (Z.eqb_spec (-1) (Z.of_nat n)); [lia|].
  unfold parseObject. rewrite ST, LS. cbn [y_map y_v]. rewrite andb_false_r. cbv zeta.
  rewrite split_kv_line by auto. cbn [andb].
  destruct (Z.eqb_spec (-1) (Z.of_nat n)); [lia|]. destruct (Z.ltb_spec (-1) (Z.of_nat n)); [|lia].
  destruct (built_more s r [] k v (y_cache p) (set_first p false) B PV OC) as (x & s1 & s' & H1 & H2 & B' & OC').
  { constructor; constructor. }
  pose proof PK as (K1 & _). pose proof PV as (V1 & _ & _ & _ & V2 & V3 & _).
  destruct B as [(W & L & T & SF) _]. rewrite T. change (vt_eqb TObject TObject) with true.
  destruct k as [|c0 k]; [congruence|]. rewrite merge_plain by auto. cbn [bind].
  unfold sub_value. destruct v as [|c v]; [congruence|]. cbn [hd] in V2, V3.
  destruct (Z.eqb_spec c 38); [contradiction|]. destruct (Z.eqb_spec c 42); [contradiction|]. cbn [negb].
  change (y_cache (set_first p false)) with (y_cache p). rewrite H1. cbn [bind]. rewrite H2. cbn [bind].
  eexists _, s'. split; [reflexivity|]. split; [exact B'|]. split; [|split; [reflexivity|exact OC']].
  split; [reflexivity|]. split; [exact RT|]. exists x. cbn [stack set_last push_node set_stack set_first]. rewrite ST. reflexivity.
Qed.

Lemma next_line p s n k v r kvs : between p n r ->
  built s r kvs -> ok_cache N s (y_cache p) -> plain_key k -> plain_value v -> distinct_keys same (kvs ++ [(k, v)]) ->
  exists p' s', parseLine E G pick cf p s (flat_line n (k, v)) (lead (flat_line n (k, v))) = Ok (None, p', s') /\
    built s' r (kvs ++ [(k, v)]) /\ between p' n r /\ y_cache p' = y_cache p /\ ok_cache N s' (y_cache p').
Proof.
  intros (LS & RT & y & ST) B OC PK PV D. rewrite line_object by auto. rewrite ST, LS. cbv zeta. cbn [y_map]. rewrite andb_false_r.
  destruct (Z.ltb_spec (Z.of_nat n) (Z.of_nat n)); [lia|]. rewrite Z.eqb_refl.
  cbn [popLast skipn]. unfold parseObject. cbn [stack set_stack first_el y_map y_v last_sp]. rewrite andb_false_r. cbv zeta.
  rewrite LS. rewrite split_kv_line by auto. cbn [andb]. rewrite Z.eqb_refl.
  set (p1 := set_first (set_stack p [mkNode false (-1) r]) false).
  destruct (built_more s r kvs k v (y_cache p) p1 B PV OC D) as (x & s1 & s' & H1 & H2 & B' & OC').
  pose proof PK as (K1 & _). pose proof PV as (V1 & _).
  destruct k as [|c0 k]; [congruence|]. cbn [negb]. rewrite merge_plain by auto. cbn [bind].
  destruct v as [|c v]; [congruence|].
  change (y_cache p1) with (y_cache p). rewrite H1. cbn [bind]. rewrite H2. cbn [bind].
  eexists _, s'. split; [reflexivity|]. split; [exact B'|]. split; [|split; [reflexivity|exact OC']].
  split; [reflexivity|]. split; [exact RT|]. exists x. reflexivity.
Qed.

Lemma line_len n kv : plain_key (fst kv) -> (2 <= List.length (flat_line n kv))%nat.
Proof. intros (K & _). unfold flat_line. rewrite !app_length. destruct (fst kv); [congruence|]. cbn [List.length]. lia. Qed.

Lemma next_lines n r more : forall kvs p s, between p n r -> built s r kvs -> ok_cache N s (y_cache p) ->
  Forall (fun kv => plain_key (fst kv) /\ plain_value (snd kv)) more -> distinct_keys same (kvs ++ more) ->
  exists p' s', run E G pick cf p s (map (flat_line n) more) = Ok (None, p', s') /\
    built s' r (kvs ++ more) /\ y_root p' = Some r.
Proof.
  induction more as [|[k v] more IH]; intros kvs p s BT B OC F D; cbn [map run].
  - exists p, s. rewrite app_nil_r. split; [reflexivity|]. split; [exact B|]. apply BT.
  - inversion F as [|? ? [PK PV] F']; subst. cbn [fst snd] in PK, PV.
    pose proof (line_len n (k, v) PK) as LL. destruct (Nat.ltb_spec (List.length (flat_line n (k, v))) 2); [lia|].
    replace (kvs ++ (k, v) :: more) with ((kvs ++ [(k, v)]) ++ more) in * by (rewrite <- app_assoc; reflexivity).
    assert (D1 : distinct_keys same (kvs ++ [(k, v)])).
    { clear - D. revert D. generalize (kvs ++ [(k, v)]). intros l. induction l as [|a l IHl]; intros D; [constructor|].
      cbn [app] in D. inversion D; subst. constructor; [|apply IHl; auto].
      rewrite Forall_forall in *. intros z Iz. apply H1. apply in_or_app; auto. }
    destruct (next_line p s n k v r kvs BT B OC PK PV D1) as (p1 & s1 & H1 & B1 & BT1 & YC & OC1).
    rewrite H1. cbn [bind]. apply IH; auto.
Qed.

Lemma flat_lines p s n r k v more : stack p = [mkNode false (-1) r] -> y_root p = Some r -> last_sp p = -1 ->
  built s r [] -> ok_cache N s (y_cache p) ->
  Forall (fun kv => plain_key (fst kv) /\ plain_value (snd kv)) ((k, v) :: more) -> distinct_keys same ((k, v) :: more) ->
  exists p' s', run E G pick cf p s (map (flat_line n) ((k, v) :: more)) = Ok (None, p', s') /\
    built s' r ((k, v) :: more) /\ y_root p' = Some r.
Proof.
  intros ST RT LS B OC F D. inversion F as [|? ? [PK PV] F']; subst. cbn [fst snd] in PK, PV. cbn [map run].
  pose proof (line_len n (k, v) PK) as LL. destruct (Nat.ltb_spec (List.length (flat_line n (k, v))) 2); [lia|].
  destruct (first_line p s n k v r ST RT LS B OC PK PV) as (p1 & s1 & H1 & B1 & BT1 & YC & OC1).
  rewrite H1. cbn [bind]. apply (next_lines n r more [(k, v)]); auto.
Qed.

(** ** The root *)
Lemma new_root_built p s : wf s ->
  let '(p1, s1, r) := new_root G pick p s TObject in
  built s1 r [] /\ y_root p1 = Some r /\ ok_cache N s1 (y_cache p1) /\ last_sp p1 = last_sp p /\
  stack p1 = mkNode false (-1) r :: stack p /\ first_el p1 = first_el p.
Proof.
  intros W.
  assert (H : let '(k, s1) := getCache s (pick s) in let '(r, s2) := getValue G s1 (Some k) TObject in
    built s2 r [] /\ ok_cache N s2 (Some k)).
  { pose proof (tr_getCache N N s (pick s) W) as [T C]. destruct (getCache s (pick s)) as [k s1]. cbn [fst snd] in T, C.
    assert (W1 : wf s1) by apply T.
    pose proof (getValue_got G s1 (Some k) TObject W1 C) as GV.
    pose proof (tr_getValue N N G s1 (Some k) TObject W1 C) as (T2 & _).
    destruct (getValue G s1 (Some k) TObject) as [r s2]. cbn [fst snd] in GV, T2.
    pose proof (g_clean _ _ _ _ GV) as (CT & _ & _ & CK & _).
    split; [|exact (ok_cache_tr N N _ _ _ T2 C)].
    constructor.
    - split; [apply T2|]. split; [exact (g_live _ _ _ _ GV)|]. split; [exact CT|]. rewrite CK. intros [].
    - unfold HeapCalls.pairs. rewrite CK. destruct (c_unesc (hp s2 r)); constructor. }
  unfold new_root. destruct (use_cache p).
  - destruct (getCache s (pick s)) as [k s1]. destruct (getValue G s1 (Some k) TObject) as [r s2].
    destruct H as [B C]. split; [exact B|]. split; [reflexivity|]. split; [exact C|]. auto.
  - unfold NewCacheValue. destruct (getCache s (pick s)) as [k s1]. destruct (getValue G s1 (Some k) TObject) as [r s2].
    destruct H as [B C]. split; [exact B|]. split; [reflexivity|]. split; [|auto].
    apply own_okc. apply B.
Qed.

(** With no node on the stack the first line makes the root. *)
Lemma first_line_root p s n k v : stack p = [] -> last_sp p = -1 -> plain_key k -> plain_value v ->
  parseLine E G pick cf p s (flat_line n (k, v)) (lead (flat_line n (k, v))) =
  (let '(p1, s1, _) := new_root G pick p s TObject in
   parseLine E G pick cf p1 s1 (flat_line n (k, v)) (lead (flat_line n (k, v)))).
Proof.
  intros ST LS PK PV.
  assert (X : let '(p1, s1, r) := new_root G pick p s TObject in
    stack p1 = [mkNode false (-1) r] /\ last_sp p1 = -1).
  { unfold new_root. destruct (use_cache p).
    - destruct (getCache s (pick s)) as [k' s1]. destruct (getValue G s1 (Some k') TObject) as [r s2].
      cbn [stack push_node set_stack set_root last_sp]. rewrite ST. auto.
    - destruct (NewCacheValue G s (pick s) TObject) as [r s2].
      cbn [stack push_node set_stack set_root last_sp]. rewrite ST. auto. }
  rewrite line_object by auto. rewrite ST, LS. cbv zeta.
  destruct (Z.ltb_spec (Z.of_nat n) (-1)); [lia|]. destruct (Z.eqb_spec (-1) (Z.of_nat n)); [lia|].
  unfold parseObject at 1. rewrite ST, LS. cbv zeta.
  destruct (new_root G pick p s TObject) as [[p1 s1] r]. destruct X as [ST1 LS1].
  rewrite line_object by auto. rewrite ST1, LS1. cbn [y_map]. rewrite andb_false_r. cbv zeta.
  destruct (Z.ltb_spec (Z.of_nat n) (-1)); [lia|]. destruct (Z.eqb_spec (-1) (Z.of_nat n)); [lia|].
  unfold parseObject. rewrite ST1, LS1. cbn [y_map y_v]. rewrite andb_false_r. cbv zeta.
  rewrite split_kv_line by auto. destruct k as [|c0 k]; [destruct PK; congruence|].
  destruct (Z.eqb_spec (-1) (Z.of_nat n)); [lia|]. reflexivity.
Qed.

(** The value of what has been built. *)
Lemma built_rep s r kvs : built s r kvs -> exists u vs, rep (hp s) (Some r) (VObject u vs) /\
  unescape_keys E u vs = map (fun kv => (fst kv, scalar E (snd kv))) kvs.
Proof.
  intros [(W & L & T & _) F]. unfold HeapCalls.pairs in F. set (u := c_unesc (hp s r)) in *.
  assert (H : exists vs, Forall2 (fun a b => fst a = fst b /\ rep (hp s) (snd a) (snd b)) (c_kvs (hp s r)) vs /\
     unescape_keys E u vs = map (fun kv => (fst kv, scalar E (snd kv))) kvs).
  { destruct u; cbn [unescape_keys] in *.
    - clear -F. remember (c_kvs (hp s r)) as prs eqn:Q. clear Q. induction F as [|kv pr kvs prs (Q & x & Q1 & Q2 & Q3 & Q4) F IH].
      + exists []. split; [constructor|reflexivity].
      + destruct IH as (vs & IH1 & IH2). exists ((fst kv, scalar E (snd kv)) :: vs). split.
        * constructor; auto. split; [exact Q|]. cbn [snd]. exact (eq_ind_r (fun z => rep (hp s) z _) Q4 Q1).
        * cbn [map]. rewrite IH2. reflexivity.
    - clear -F. revert kvs F. induction (c_kvs (hp s r)) as [|pr prs IH]; intros kvs F; cbn [map] in F; inversion F as [|x pr' kvs' prs' HD TL]; subst.
      + exists []. split; [constructor|reflexivity].
      + destruct HD as (Q & y & Q1 & Q2 & Q3 & Q4). cbn [fst snd] in Q, Q1.
        destruct (IH _ TL) as (vs & IH1 & IH2). exists ((fst pr, scalar E (snd x)) :: vs). split.
        * constructor; auto. split; [reflexivity|]. cbn [snd]. exact (eq_ind_r (fun z => rep (hp s) z _) Q4 Q1).
        * cbn [map fst snd]. rewrite IH2. f_equal. f_equal. exact Q. }
  destruct H as (vs & H1 & H2). exists u, vs. split; [constructor; auto|exact H2].
Qed.

(** The lines as a document, with or without a newline at the end. *)
Definition fin (nl : bool) : list bytes := if nl then [[]] else [].
Definition flat_doc (n : nat) (kvs : list (bytes * bytes)) (nl : bool) : bytes :=
  doc (map (flat_line n) kvs ++ fin nl).

Lemma line_nn n kv : plain_key (fst kv) -> plain_value (snd kv) -> no_newline (flat_line n kv).
Proof.
  intros (_ & _ & _ & _ & K & _) (_ & _ & _ & V & _). unfold no_newline, flat_line, blanks. rewrite !in_app_iff.
  intros [I|[I|[I|I]]]; auto.
  - apply repeat_spec in I. discriminate.
  - cbn [In] in I. intuition discriminate.
Qed.
Lemma flat_nn n kvs nl : Forall (fun kv => plain_key (fst kv) /\ plain_value (snd kv)) kvs ->
  Forall no_newline (map (flat_line n) kvs ++ fin nl).
Proof.
  intros F. apply Forall_app. split; [|destruct nl; repeat constructor; intros []].
  apply Forall_map. eapply Forall_impl; [|exact F]. intros kv [K V]. apply line_nn; auto.
Qed.
Lemma last_in {A} (l : list A) d : l <> [] -> In (last l d) l.
Proof. induction l as [|a l IH]; [congruence|]. intros _. cbn [last]. destruct l; [left; auto|right; apply IH; discriminate]. Qed.
Lemma last_app' {A} (a b : list A) d : b <> [] -> last (a ++ b) d = last b d.
Proof.
  intros NB. induction a as [|c a IH]; [reflexivity|]. cbn [app]. rewrite <- IH.
  destruct (a ++ b) eqn:Q; [|reflexivity]. apply app_eq_nil in Q as [_ Q]. congruence.
Qed.
Lemma flat_run n kvs nl m p s : kvs <> [] -> Forall (fun kv => plain_key (fst kv) /\ plain_value (snd kv)) kvs ->
  (List.length kvs < m)%nat ->
  yparse E G pick cf m p s (flat_doc n kvs nl) = run E G pick cf (started p) s (map (flat_line n) kvs).
Proof.
  intros NE F LE. unfold flat_doc.
  assert (N1 : map (flat_line n) kvs ++ fin nl <> []).
  { destruct kvs; [congruence|discriminate]. }
  rewrite parse_run; auto.
  - replace (List.length (last (map (flat_line n) kvs ++ fin nl) []) =? 1)%nat with false.
    + rewrite run_app. destruct (run E G pick cf (started p) s (map (flat_line n) kvs)) as [[[[e|] p1] s1]| | |]; try reflexivity.
      cbn [bind]. destruct nl; reflexivity.
    + symmetry. apply Nat.eqb_neq. destruct nl; cbn [fin] in *.
      * rewrite last_last. cbn. lia.
      * assert (LG : forall l, In l (map (flat_line n) kvs) -> List.length l <> 1%nat).
        { intros l I. apply in_map_iff in I as (kv & <- & I).
          rewrite Forall_forall in F. pose proof (line_len n kv (proj1 (F kv I))). lia. }
        rewrite app_nil_r in *. apply LG, last_in. exact N1.
  - intros Q. destruct kvs as [|kv kvs]; [congruence|]. cbn [map app] in Q.
    inversion F as [|? ? [K _] _]; subst. pose proof (line_len n kv K) as LL.
    destruct (flat_line n kv) as [|c0 l0]; [cbn in LL; lia|]. cbn [doc] in Q.
    destruct (map (flat_line n) kvs ++ fin nl); discriminate.
  - apply flat_nn; auto.
  - rewrite app_length, map_length. destruct nl; cbn [fin List.length]; lia.
Qed.

Theorem flat_new m p s n kvs nl use : wf s -> stack p = [] -> kvs <> [] ->
  Forall (fun kv => plain_key (fst kv) /\ plain_value (snd kv)) kvs -> distinct_keys same kvs -> (List.length kvs < m)%nat ->
  exists r p' s' u vs, NewValueFromYaml E G pick cf m p s (flat_doc n kvs nl) use = Ok (None, Some r, p', s') /\ wf s' /\ live s' r /\
    rep (hp s') (Some r) (VObject u vs) /\ unescape_keys E u vs = map (fun kv => (fst kv, scalar E (snd kv))) kvs.
Proof.
  intros W ST NE F D LE. unfold NewValueFromYaml. rewrite flat_run by auto.
  destruct kvs as [|[k v] more]; [congruence|].
  set (p0 := started _). assert (ST0 : stack p0 = []) by exact ST. assert (LS0 : last_sp p0 = -1) by reflexivity. clearbody p0.
  pose proof (Forall_inv F) as [PK PV]. cbn [fst snd] in PK, PV.
  cbn [map run]. pose proof (line_len n (k, v) PK) as LL.
  pose proof (flat_lines) as FL.
  destruct (Nat.ltb_spec (List.length (flat_line n (k, v))) 2); [lia|].
  rewrite first_line_root by auto.
  pose proof (new_root_built p0 s W) as NR. destruct (new_root G pick p0 s TObject) as [[p1 s1] r].
  destruct NR as (B & RT & OC & LS1 & ST1 & _). rewrite ST0 in ST1. rewrite LS0 in LS1.
  destruct (flat_lines p1 s1 n r k v more ST1 RT LS1 B OC F D) as (p' & s' & H1 & B' & RT').
  cbn [map run] in H1. destruct (Nat.ltb_spec (List.length (flat_line n (k, v))) 2); [lia|].
  rewrite H1. cbn [bind]. rewrite RT'. destruct (built_rep _ _ _ B') as (u & vs & R & U).
  exists r, (yreset p'), s', u, vs. split; [reflexivity|]. destruct B' as [(W' & L' & _) _]. auto.
Qed.

Lemma drop_ws_flat kvs nl : kvs <> [] -> Forall (fun kv => plain_key (fst kv) /\ plain_value (snd kv)) kvs ->
  (forall kv, hd_error kvs = Some kv -> hd 0 (fst kv) <> 9) ->
  exists c r, flat_doc 0 kvs nl = c :: r /\ drop_ws (flat_doc 0 kvs nl) = c :: r /\ c <> 45.
Proof.
  intros NE F H9. destruct kvs as [|[k v] more]; [congruence|]. inversion F as [|? ? [PK PV] _]; subst. cbn [fst] in PK.
  specialize (H9 _ eq_refl). cbn [fst] in H9. destruct PK as (K1 & [K2 _] & _ & _ & _ & _ & K3 & _).
  assert (Q : exists r, flat_doc 0 ((k, v) :: more) nl = hd 0 k :: r).
  { unfold flat_doc. cbn [map app]. destruct k as [|c k]; [congruence|].
    destruct (map (flat_line 0) more ++ fin nl); cbn [doc]; eexists; reflexivity. }
  destruct Q as (r & Q). set (c := hd 0 k) in *. clearbody c. exists c, r. rewrite Q.
  split; [reflexivity|]. split; [|exact K3]. cbn [drop_ws].
  destruct (Z.eqb_spec c 32); [exfalso; apply K2; left; auto|]. destruct (Z.eqb_spec c 13); [exfalso; apply K2; right; right; left; auto|].
  destruct (Z.eqb_spec c 10); [exfalso; apply K2; right; left; auto|]. destruct (Z.eqb_spec c 9); [contradiction|]. reflexivity.
Qed.

Theorem flat_load m p s s1 l kvs nl : wf s -> Clear s l = Ok s1 -> live s1 l -> (5 <= l)%nat -> stack p = [] -> kvs <> [] ->
  Forall (fun kv => plain_key (fst kv) /\ plain_value (snd kv)) kvs ->
  (forall kv, hd_error kvs = Some kv -> hd 0 (fst kv) <> 9) ->
  distinct_keys same kvs -> (List.length kvs < m)%nat ->
  exists p' s' u vs, LoadFromYaml E G pick cf m p s l (flat_doc 0 kvs nl) = Ok (None, p', s') /\ wf s' /\ live s' l /\
    rep (hp s') (Some l) (VObject u vs) /\ unescape_keys E u vs = map (fun kv => (fst kv, scalar E (snd kv))) kvs.
Proof.
  intros W CL L L5 ST NE F H9 D LE. unfold LoadFromYaml. rewrite CL. cbn [bind].
  destruct (drop_ws_flat kvs nl NE F H9) as (c & r & Q1 & Q2 & C45). rewrite Q2.
  destruct (Z.eqb_spec c 45); [contradiction|]. cbv zeta. rewrite <- Q1. rewrite flat_run by auto.
  assert (RO : ReadOnly l = false) by (apply ReadOnly_ge; auto).
  assert (O1 : ok_loc N s l).
  { destruct (tr_Clear_any s l s1 CL) as [Q _]. split; [destruct L as [L _]; lia|intros []]. }
  pose proof (tr_Clear N N s l s1 W O1 CL) as T1. assert (W1 : wf s1) by apply T1.
  pose proof (tr_Reset N N s1 l TObject W1 (ok_of_live _ _ L)) as T2.
  assert (B : built (Reset s1 l TObject) l []).
  { unfold Reset in *. rewrite RO in *. constructor.
    - split; [apply T2|]. split; [exact L|]. cbn [hp set_cell]. rewrite upd_same, dt_reset, kvs_reset. split; [reflexivity|intros []].
    - unfold HeapCalls.pairs. cbn [hp set_cell]. rewrite upd_same, kvs_reset. destruct (c_unesc _); constructor. }
  destruct kvs as [|[k v] more]; [congruence|].
  match goal with |- context [run E G pick cf ?p0 _ _] => destruct (flat_lines p0 (Reset s1 l TObject) 0 l k v more) as (p' & s' & H1 & B' & RT') end; auto.
  - cbn [stack started]. rewrite ST. reflexivity.
  - cbn [y_cache started]. apply own_okc. apply B.
  - rewrite H1. cbn [bind]. destruct (built_rep _ _ _ B') as (u & vs & R & U).
    exists (yreset p'), s', u, vs. split; [reflexivity|]. destruct B' as [(W' & L' & _) _]. auto.
Qed.
End Flat.
