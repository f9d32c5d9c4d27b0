(** Facts about the lexical functions of the JSON parser: whitespace, string and key ends,
    numbers. *)
From Coq Require Import String.
From Verif Require Import Base Values Tactics JsonModel JsonSpec.

(** ** Whitespace *)
Lemma wsb_spec c : wsb c = true <-> In c [32; 9; 10; 13].
Proof. unfold wsb; simpl; lia. Qed.
Lemma wsb_false c : wsb c = false -> ~ In c [32; 9; 10; 13].
Proof. intros H Hi. apply wsb_spec in Hi. congruence. Qed.

Fixpoint drop_ws (b : bytes) : bytes :=
  match b with
  | [] => []
  | c :: r => if wsb c then drop_ws r else b
  end.
Lemma skip_loop_fst b : forall i, fst (skip_loop i b) = drop_ws b.
Proof. induction b; intros; simpl; auto. destruct (wsb a); auto. Qed.
Lemma skipWB_fst b : fst (skipWB b) = drop_ws b.
Proof. destruct b; simpl; auto. destruct (wsb z); simpl; auto using skip_loop_fst. Qed.
Lemma skip_loop_len b : forall i, 1 <= i ->
  0 <= snd (skip_loop i b) /\ snd (skip_loop i b) <= i - 1 + zlen b.
Proof.
  induction b as [|c r IH]; intros i Hi; cbn [skip_loop].
  - unfold zlen; simpl; lia.
  - rewrite zlen_cons. pose proof (zlen_nonneg r). destruct (wsb c); [|cbn [snd]; lia].
    specialize (IH (i + 1)). lia.
Qed.
Lemma skipWB_len b : 0 <= snd (skipWB b) <= zlen b.
Proof.
  destruct b as [|c r]; cbn [skipWB]; [unfold zlen; simpl; lia|]. rewrite zlen_cons.
  pose proof (zlen_nonneg r). destruct (wsb c); [|cbn [snd]; lia].
  pose proof (skip_loop_len r 1). lia.
Qed.
Lemma skipWB_eq b : skipWB b = (drop_ws b, snd (skipWB b)).
Proof. rewrite <- skipWB_fst. apply surjective_pairing. Qed.

Lemma drop_ws_split b : exists w, ws w /\ b = w ++ drop_ws b.
Proof.
  induction b as [|c r (w & Hw & Hr)]; [exists []; split; [constructor|auto]|].
  cbn [drop_ws]. destruct (wsb c) eqn:Hc.
  - exists (c :: w). split; [constructor; [apply wsb_spec|]; auto|]. simpl. congruence.
  - exists []. split; [constructor|auto].
Qed.
Lemma drop_ws_hd b c r : drop_ws b = c :: r -> wsb c = false.
Proof.
  induction b as [|x b IH]; cbn [drop_ws]; [discriminate|].
  destruct (wsb x) eqn:Hx; auto. intros H; injection H as -> ->. auto.
Qed.
Lemma drop_ws_app w r : ws w -> drop_ws (w ++ r) = drop_ws r.
Proof.
  induction 1 as [|c w Hc Hw IH]; cbn [app drop_ws]; auto.
  apply wsb_spec in Hc. rewrite Hc; auto.
Qed.
Lemma drop_ws_id b : (forall c r, b = c :: r -> wsb c = false) -> drop_ws b = b.
Proof. destruct b; simpl; auto. intros H. rewrite (H z b); auto. Qed.
Lemma drop_ws_skip w c r : ws w -> wsb c = false -> drop_ws (w ++ c :: r) = c :: r.
Proof. intros Hw Hc. rewrite drop_ws_app by auto. simpl; rewrite Hc; auto. Qed.
Lemma drop_ws_nil b : drop_ws b = [] <-> ws b.
Proof.
  split.
  - intros H. destruct (drop_ws_split b) as (w & Hw & Hb). rewrite H, app_nil_r in Hb. congruence.
  - intros H. rewrite <- (app_nil_r b). rewrite drop_ws_app; auto.
Qed.
Lemma drop_ws_length b : (List.length (drop_ws b) <= List.length b)%nat.
Proof. induction b; simpl; auto. destruct (wsb a); simpl; lia. Qed.
Lemma drop_ws_idem b : drop_ws (drop_ws b) = drop_ws b.
Proof. apply drop_ws_id. intros; eapply drop_ws_hd; eauto. Qed.

(** ** Where strings end *)
Lemma index_byte_some b c n : index_byte b c = Some n ->
  nth_error b n = Some c /\ (forall m, (m < n)%nat -> nth_error b m <> Some c).
Proof.
  revert n; induction b as [|x b IH]; intros n; cbn [index_byte]; [discriminate|].
  destruct (Z.eqb_spec x c) as [->|Hx].
  - intros H; injection H as <-. split; auto. intros; lia.
  - destruct (index_byte b c) as [k|]; [|discriminate]. intros H; injection H as <-.
    destruct (IH k eq_refl) as [H1 H2]. split; auto.
    intros [|m] Hm; simpl; [congruence|]. apply H2; lia.
Qed.
Lemma index_byte_none b c : index_byte b c = None <-> ~ In c b.
Proof.
  induction b as [|x b IH]; cbn [index_byte]; [simpl; tauto|].
  destruct (Z.eqb_spec x c) as [->|Hx]; [split; [discriminate|simpl; tauto]|].
  destruct (index_byte b c); cbn [option_map]; [|simpl; tauto].
  split; [discriminate|]. intros H. exfalso. apply H. right.
  destruct (in_dec Z.eq_dec c b); auto. apply IH in n0. discriminate.
Qed.
Lemma index_byte_app p b c : ~ In c p -> index_byte (p ++ c :: b) c = Some (List.length p).
Proof.
  induction p as [|x p IH]; cbn [app index_byte List.length]; intros H.
  - rewrite Z.eqb_refl; auto.
  - destruct (Z.eqb_spec x c) as [->|Hx]; [exfalso; apply H; left; auto|].
    rewrite IH; [auto|]. intros Hi; apply H; right; auto.
Qed.
Lemma index_byte_split b c n : index_byte b c = Some n ->
  b = firstn n b ++ c :: skipn (n + 1) b /\ ~ In c (firstn n b) /\ List.length (firstn n b) = n.
Proof.
  revert n; induction b as [|x b IH]; intros n; cbn [index_byte]; [discriminate|].
  destruct (Z.eqb_spec x c) as [->|Hx].
  - intros H; injection H as <-. cbn. auto.
  - destruct (index_byte b c) as [k|]; [|discriminate]. intros H; injection H as <-.
    destruct (IH k eq_refl) as (H1 & H2 & H3).
    cbn [Nat.add firstn skipn app List.length]. split; [congruence|]. split; [|congruence].
    intros [|]; auto.
Qed.

Lemma run_start_spec b i : (run_start b i + backslashes_before b i = i)%nat.
Proof. induction i; simpl; auto. destruct (nth i b 0 =? 92); simpl; lia. Qed.
Lemma bb_le b n : (backslashes_before b n <= n)%nat.
Proof. pose proof (run_start_spec b n); lia. Qed.

(** A prefix that does not end in a backslash does not change the count. *)
Lemma bb_app q c b n : c <> 92 ->
  backslashes_before ((q ++ [c]) ++ b) (List.length (q ++ [c]) + n) = backslashes_before b n.
Proof.
  intros Hc. induction n as [|n IH].
  - rewrite Nat.add_0_r, app_length, Nat.add_1_r. cbn [backslashes_before].
    rewrite <- app_assoc, app_nth2, Nat.sub_diag by lia. cbn [app nth].
    destruct (Z.eqb_spec c 92); [congruence|auto].
  - rewrite Nat.add_succ_r. cbn [backslashes_before]. rewrite IH.
    rewrite app_nth2_plus. auto.
Qed.
Lemma bb_cons c b n : backslashes_before (c :: b) (S n) =
  (backslashes_before b n +
     (if (backslashes_before b n =? n)%nat then if (c =? 92)%Z then 1 else 0 else 0))%nat.
Proof.
  induction n as [|n IH]; [cbn; destruct (c =? 92); auto|].
  change (backslashes_before (c :: b) (S (S n))) with
    (if nth n b 0 =? 92 then S (backslashes_before (c :: b) (S n)) else O).
  rewrite IH. cbn [backslashes_before].
  destruct (nth n b 0 =? 92); [|reflexivity].
  cbn [Nat.eqb]. lia.
Qed.
Lemma bb_plain c b n : c <> 92 -> backslashes_before (c :: b) (S n) = backslashes_before b n.
Proof.
  intros Hc. rewrite bb_cons. destruct (Z.eqb_spec c 92); [congruence|].
  destruct (_ =? n)%nat; lia.
Qed.
Lemma bb_esc c b n : Nat.even (backslashes_before (92 :: c :: b) (S (S n))) =
  Nat.even (backslashes_before b n).
Proof.
  rewrite bb_cons, bb_cons. pose proof (bb_le b n) as Hle.
  destruct (Nat.eqb_spec (backslashes_before b n) n) as [He|He]; rewrite ?He.
  - change (92 =? 92) with true. destruct (Z.eqb_spec c 92) as [->|Hc].
    + rewrite Nat.add_1_r, Nat.eqb_refl, Nat.add_1_r. reflexivity.
    + rewrite Nat.add_0_r. destruct (Nat.eqb_spec n (S n)); [lia|]. rewrite Nat.add_0_r; auto.
  - rewrite Nat.add_0_r. destruct (Nat.eqb_spec (backslashes_before b n) (S n)); [lia|].
    rewrite Nat.add_0_r; auto.
Qed.

Lemma closing_plain c b n : c <> 92 -> closing (c :: b) (S n) <-> closing b n.
Proof. intros Hc. unfold closing. rewrite bb_plain by auto. simpl. tauto. Qed.
Lemma closing_esc c b n : closing (92 :: c :: b) (S (S n)) <-> closing b n.
Proof. unfold closing. rewrite bb_esc. simpl. tauto. Qed.
Lemma closing_0 b : closing b 0 <-> hd_error b = Some 34.
Proof. unfold closing. destruct b; simpl; intuition congruence. Qed.
Lemma not_closing_92_0 b : ~ closing (92 :: b) 0.
Proof. rewrite closing_0. discriminate. Qed.
Lemma not_closing_92_1 b : ~ closing (92 :: b) 1.
Proof. unfold closing. simpl. intros [_ H]. discriminate. Qed.

Definition first_closing (b : bytes) (n : nat) : Prop :=
  closing b n /\ forall m, (m < n)%nat -> ~ closing b m.

Lemma first_closing_unique b n m : first_closing b n -> first_closing b m -> n = m.
Proof.
  intros [H1 H2] [H3 H4]. destruct (Nat.lt_trichotomy n m) as [H|[H|H]]; auto.
  - exfalso; eapply H4; eauto.
  - exfalso; eapply H2; eauto.
Qed.
Lemma first_closing_esc c b n : first_closing (92 :: c :: b) (S (S n)) <-> first_closing b n.
Proof.
  unfold first_closing. rewrite closing_esc. split; intros [H1 H2]; split; auto.
  - intros m Hm Hc. apply (H2 (S (S m))); [lia|]. apply closing_esc; auto.
  - intros [|[|m]] Hm Hc.
    + eapply not_closing_92_0; eauto.
    + eapply not_closing_92_1; eauto.
    + apply closing_esc in Hc. eapply H2; [|eauto]. lia.
Qed.
Lemma first_closing_plain c b n : c <> 92 -> c <> 34 ->
  first_closing (c :: b) (S n) <-> first_closing b n.
Proof.
  intros Hc Hq. unfold first_closing. rewrite closing_plain by auto.
  split; intros [H1 H2]; split; auto.
  - intros m Hm Hx. apply (H2 (S m)); [lia|]. apply closing_plain; auto.
  - intros [|m] Hm Hx.
    + apply closing_0 in Hx. simpl in Hx. congruence.
    + apply closing_plain in Hx; auto. eapply H2; [|eauto]. lia.
Qed.

Lemma content_closing s t : str_content s -> first_closing (s ++ 34 :: t) (List.length s).
Proof.
  induction 1 as [|c r Hq Hb Hr IH|c r Hr IH].
  - split; [apply closing_0; auto|intros m Hm; simpl in Hm; lia].
  - cbn [app List.length]. apply first_closing_plain; auto.
  - cbn [app List.length]. apply first_closing_esc; auto.
Qed.
Lemma closing_content k : forall b n, (n <= k)%nat -> first_closing b n ->
  str_content (firstn n b) /\ b = firstn n b ++ 34 :: skipn (n + 1) b /\ (n < List.length b)%nat.
Proof.
  induction k as [|k IH]; intros b n Hn Hc.
  - assert (n = 0)%nat by lia. subst. destruct Hc as [Hc _]. apply closing_0 in Hc.
    destruct b; simpl in Hc; [discriminate|]. injection Hc as ->. cbn. repeat split; try lia.
    constructor.
  - destruct n as [|n].
    { destruct Hc as [Hc _]. apply closing_0 in Hc.
      destruct b; simpl in Hc; [discriminate|]. injection Hc as ->. cbn. repeat split; try lia.
      constructor. }
    destruct b as [|c b]; [destruct Hc as [[Hc _] _]; destruct n; discriminate|].
    destruct (Z.eq_dec c 34) as [->|Hq].
    { exfalso. destruct Hc as [_ Hc]. apply (Hc 0%nat); [lia|]. apply closing_0; auto. }
    destruct (Z.eq_dec c 92) as [->|Hb].
    + destruct n as [|n]; [exfalso; destruct Hc as [Hc _]; eapply not_closing_92_1; eauto|].
      destruct b as [|d b]; [destruct Hc as [[Hc _] _]; destruct n; discriminate|].
      apply first_closing_esc in Hc. destruct (IH b n) as (H1 & H2 & H3); [lia|auto|].
      cbn [firstn Nat.add skipn app List.length]. repeat split; [apply str_esc; auto|congruence|lia].
    + apply first_closing_plain in Hc; auto. destruct (IH b n) as (H1 & H2 & H3); [lia|auto|].
      cbn [firstn Nat.add skipn app List.length]. repeat split; [constructor; auto|congruence|lia].
Qed.

(** The loop finds the first closing quote. *)
Lemma skipn_cut {A} (b : list A) n x : nth_error b n = Some x ->
  b = (firstn n b ++ [x]) ++ skipn (n + 1) b /\ List.length (firstn n b ++ [x]) = (n + 1)%nat.
Proof.
  revert b; induction n; intros [|y b]; simpl; try discriminate.
  - intros H; injection H as ->. auto.
  - intros H. destruct (IHn b H) as [H1 H2]. split; congruence.
Qed.

Definition prefix_ok (p : bytes) : Prop := p = [] \/ exists q, p = q ++ [34].
Lemma bb_prefix p b n : prefix_ok p ->
  backslashes_before (p ++ b) (List.length p + n) = backslashes_before b n.
Proof. intros [->|[q ->]]; auto. apply bb_app. discriminate. Qed.
Lemma nth_error_prefix {A} (p b : list A) n : nth_error (p ++ b) (List.length p + n) = nth_error b n.
Proof. rewrite nth_error_app2 by lia. f_equal. lia. Qed.
Lemma closing_prefix p b n : prefix_ok p -> closing (p ++ b) (List.length p + n) <-> closing b n.
Proof. intros H. unfold closing. rewrite bb_prefix, nth_error_prefix by auto. tauto. Qed.
Lemma bb_direct b n : (n = 0)%nat \/ nth (n - 1) b 0 <> 92 -> backslashes_before b n = 0%nat.
Proof.
  destruct n; auto. intros [|H]; [lia|]. cbn [backslashes_before].
  replace (S n - 1)%nat with n in H by lia.
  destruct (Z.eqb_spec (nth n b 0) 92); [congruence|auto].
Qed.
Lemma firstn_prefix {A} (p b : list A) n :
  (List.length (p ++ b) - List.length b + n = List.length p + n)%nat.
Proof. rewrite app_length; lia. Qed.
Lemma skipn_prefix {A} (p b : list A) n : skipn (List.length p + n) (p ++ b) = skipn n b.
Proof. rewrite skipn_app, skipn_all2 by lia. simpl. f_equal. lia. Qed.

Definition string_result (b : bytes) (r : res (bytes * bytes)) : Prop :=
  match r with
  | Ok (s, t) => exists n, first_closing b n /\ s = firstn n b /\ t = skipn (n + 1) b
  | Err e => e = ErrJson JET_NoStrEnd 0 [] /\ forall n, ~ closing b n
  | _ => False
  end.

Lemma str_loop_spec f : forall ss p b n, ss = p ++ b -> prefix_ok p ->
  index_byte b 34 = Some n -> (n <> 0)%nat -> nth (n - 1) b 0 = 92 ->
  (forall m, (m < List.length p)%nat -> ~ closing ss m) ->
  (List.length b < f)%nat -> string_result ss (str_loop f ss b n).
Proof.
  induction f as [|f IH]; intros ss p b n -> Hp Hn Hn0 Hb Hfirst Hf; [lia|].
  cbn [str_loop].
  assert (Hrun : (n - run_start b (n - 1) = backslashes_before b n)%nat).
  { destruct n as [|n]; [congruence|]. replace (S n - 1)%nat with n in * by lia.
    cbn [backslashes_before]. rewrite Hb. change (92 =? 92) with true. cbn match.
    pose proof (run_start_spec b n). lia. }
  rewrite Hrun. destruct (index_byte_some _ _ _ Hn) as [Hat Hbefore].
  assert (Hbelow : forall m, (m < List.length p + n)%nat -> ~ closing (p ++ b) m).
  { intros m Hm Hc. destruct (Nat.lt_ge_cases m (List.length p)) as [Hlt|Hge].
    - eapply Hfirst; eauto.
    - replace m with (List.length p + (m - List.length p))%nat in Hc by lia.
      apply closing_prefix in Hc; auto. destruct Hc as [Hc _].
      eapply Hbefore; [|exact Hc]. lia. }
  destruct (Nat.even (backslashes_before b n)) eqn:Hev.
  - cbn [string_result]. exists (List.length p + n)%nat.
    rewrite firstn_prefix, <- Nat.add_assoc, skipn_prefix. repeat split; auto;
      rewrite ?nth_error_prefix, ?bb_prefix; auto.
  - destruct (skipn_cut _ _ _ Hat) as [Hcut Hcutl].
    set (b' := skipn (n + 1) b) in *. set (p' := p ++ firstn n b ++ [34]).
    assert (Hss : p ++ b = p' ++ b').
    { unfold p'. rewrite Hcut at 1. rewrite !app_assoc. auto. }
    assert (Hp' : prefix_ok p').
    { right. exists (p ++ firstn n b). unfold p'. rewrite app_assoc. auto. }
    assert (Hlp : List.length p' = (List.length p + n + 1)%nat)
      by (unfold p'; rewrite app_length; lia).
    assert (Hbelow' : forall m, (m < List.length p')%nat ->
              ~ closing (p ++ b) m).
    { intros m Hm Hc. rewrite Hlp in Hm.
      destruct (Nat.eq_dec m (List.length p + n)) as [->|].
      - apply closing_prefix in Hc; auto. destruct Hc; congruence.
      - eapply Hbelow; [|eauto]. lia. }
    assert (Hlb : (List.length b' < List.length b)%nat).
    { assert (List.length b = (n + 1 + List.length b')%nat); [|lia].
      rewrite Hcut at 1. rewrite app_length, Hcutl. auto. }
    destruct (index_byte b' 34) as [m|] eqn:Hm.
    + destruct ((m =? 0)%nat || negb (nth (m - 1) b' 0 =? 92)) eqn:Hd.
      * destruct (index_byte_some _ _ _ Hm) as [Hat' Hbef'].
        cbn [string_result]. exists (List.length p' + m)%nat.
        rewrite Hss, firstn_prefix, <- Nat.add_assoc, skipn_prefix.
        split; [|auto]. split.
        -- apply closing_prefix; auto. split; auto. rewrite bb_direct; [auto|].
           destruct (Nat.eqb_spec m 0); [auto|right]. simpl in Hd. lia.
        -- intros k Hk Hc. destruct (Nat.lt_ge_cases k (List.length p')) as [Hlt|Hge].
           ++ rewrite <- Hss in Hc. eapply Hbelow'; eauto.
           ++ replace k with (List.length p' +
                (k - List.length p'))%nat in Hc by lia.
              apply closing_prefix in Hc; auto. destruct Hc as [Hc _].
              eapply Hbef'; [|exact Hc]. lia.
      * apply orb_false_iff in Hd as [Hd1 Hd2]. apply Nat.eqb_neq in Hd1.
        apply negb_false_iff, Z.eqb_eq in Hd2.
        eapply IH with (p := p'); eauto. lia.
    + cbn [string_result jerr]. split; auto. intros k Hc. apply index_byte_none in Hm.
      destruct (Nat.lt_ge_cases k (List.length p')) as [Hlt|Hge].
      * eapply Hbelow'; eauto.
      * replace k with (List.length p' +
          (k - List.length p'))%nat in Hc by lia.
        rewrite Hss in Hc. apply closing_prefix in Hc; auto. destruct Hc as [Hc _].
        apply Hm. eapply nth_error_In; eauto.
Qed.

Lemma parseJsonString_spec b : string_result b (parseJsonString b).
Proof.
  unfold parseJsonString. destruct (index_byte b 34) as [n|] eqn:Hn.
  - destruct ((n =? 0)%nat || negb (nth (n - 1) b 0 =? 92)) eqn:Hd.
    + destruct (index_byte_some _ _ _ Hn) as [H1 H2]. cbn [string_result]. exists n.
      repeat split; auto.
      * rewrite bb_direct; [auto|]. destruct (Nat.eqb_spec n 0); [auto|right]. simpl in Hd. lia.
      * intros m Hm [Hc _]. eapply H2; eauto.
    + apply orb_false_iff in Hd as [Hd1 Hd2]. apply Nat.eqb_neq in Hd1.
      apply negb_false_iff, Z.eqb_eq in Hd2.
      eapply str_loop_spec with (p := []); eauto; [left; auto|simpl; lia].
  - cbn [string_result jerr]. split; auto. intros n [H _]. apply index_byte_none in Hn.
    apply Hn. eapply nth_error_In; eauto.
Qed.

Lemma parse_string_ok s t : str_content s -> parseJsonString (s ++ 34 :: t) = Ok (s, t).
Proof.
  intros Hs. pose proof (content_closing s t Hs) as Hc.
  pose proof (parseJsonString_spec (s ++ 34 :: t)) as Hp.
  destruct (parseJsonString (s ++ 34 :: t)) as [[s' t']|e| |]; cbn [string_result] in Hp;
    [|exfalso; destruct Hp as [_ Hp]; destruct Hc as [Hc _]; eapply Hp; eauto|tauto|tauto].
  destruct Hp as (n & Hn & -> & ->). rewrite (first_closing_unique _ _ _ Hn Hc).
  rewrite firstn_app, firstn_all, Nat.sub_diag, firstn_O, app_nil_r.
  rewrite skipn_prefix. auto.
Qed.
Lemma parse_string_inv b s t : parseJsonString b = Ok (s, t) ->
  str_content s /\ b = s ++ 34 :: t.
Proof.
  intros H. pose proof (parseJsonString_spec b) as Hp. rewrite H in Hp. cbn in Hp.
  destruct Hp as (n & Hn & -> & ->).
  destruct (closing_content n b n (le_n n) Hn) as (H1 & H2 & _). auto.
Qed.
Lemma parse_string_cases b :
  (exists s t, parseJsonString b = Ok (s, t)) \/
  (parseJsonString b = Err (ErrJson JET_NoStrEnd 0 [])).
Proof.
  pose proof (parseJsonString_spec b) as Hp.
  destruct (parseJsonString b) as [[s t]|e| |]; cbn in Hp; try tauto; [eauto|].
  destruct Hp as [-> _]; auto.
Qed.

(** ** Keys *)
Lemma key_loop_spec b r : forall p, b = p ++ r -> ~ In 34 p ->
  key_loop b (List.length p) r =
  match index_byte r 34 with
  | Some m => Ok (p ++ firstn m r, skipn (m + 1) r)
  | None => Err (ErrJson JET_NoKeyStart (zlen b) [])
  end.
Proof.
  induction r as [|c r IH]; intros p Hb Hp; cbn [key_loop index_byte]; [auto|].
  destruct (Z.eqb_spec c 34) as [->|Hc].
  - cbn [firstn]. rewrite app_nil_r, Hb, firstn_app, firstn_all, Nat.sub_diag, firstn_O, app_nil_r.
    rewrite skipn_prefix. auto.
  - assert (Hgo : key_loop b (S (List.length p)) r =
      match option_map S (index_byte r 34) with
      | Some m => Ok (p ++ firstn m (c :: r), skipn (m + 1) (c :: r))
      | None => Err (ErrJson JET_NoKeyStart (zlen b) [])
      end).
    { replace (S (List.length p)) with (List.length (p ++ [c])) by (rewrite app_length; simpl; lia).
      rewrite IH.
      - destruct (index_byte r 34); cbn [option_map firstn Nat.add skipn]; auto.
        rewrite <- app_assoc; auto.
      - rewrite <- app_assoc; auto.
      - rewrite in_app_iff; simpl. intuition congruence. }
    destruct (c =? 92); [|exact Hgo].
    destruct (parse_string_cases b) as [(s & t & Hs)|Hs]; rewrite Hs; exact Hgo.
Qed.
Lemma parseJsonKey_spec b : parseJsonKey b =
  match index_byte b 34 with
  | Some m => Ok (firstn m b, skipn (m + 1) b)
  | None => Err (ErrJson JET_NoKeyStart (zlen b) [])
  end.
Proof. unfold parseJsonKey. change 0%nat with (@List.length Z []). rewrite key_loop_spec; auto. Qed.
Lemma parse_key_ok k t : ~ In 34 k -> parseJsonKey (k ++ 34 :: t) = Ok (k, t).
Proof.
  intros Hk. rewrite parseJsonKey_spec, index_byte_app by auto.
  rewrite firstn_app, firstn_all, Nat.sub_diag, firstn_O, app_nil_r, skipn_prefix. auto.
Qed.
Lemma parse_key_inv b k t : parseJsonKey b = Ok (k, t) -> ~ In 34 k /\ b = k ++ 34 :: t.
Proof.
  rewrite parseJsonKey_spec. destruct (index_byte b 34) as [n|] eqn:Hn; [|discriminate].
  intros H; injection H as <- <-. destruct (index_byte_split _ _ _ Hn) as (H1 & H2 & _). auto.
Qed.
Lemma parse_key_cases b :
  (exists k t, parseJsonKey b = Ok (k, t)) \/
  (~ In 34 b /\ parseJsonKey b = Err (ErrJson JET_NoKeyStart (zlen b) [])).
Proof.
  rewrite parseJsonKey_spec. destruct (index_byte b 34) eqn:Hn; [eauto|].
  right. split; auto. apply index_byte_none; auto.
Qed.

(** ** Numbers *)
Lemma numchar_spec c : numchar c = true <-> number_byte c.
Proof. unfold numchar, number_byte, digit; simpl; lia. Qed.
Lemma numchar_false c : numchar c = false <-> ~ number_byte c.
Proof. rewrite <- numchar_spec. destruct (numchar c); intuition congruence. Qed.
Lemma num_end_app lex c r : Forall number_byte lex -> ~ number_byte c ->
  num_end (lex ++ c :: r) = Some (List.length lex).
Proof.
  intros Hl Hc. induction Hl as [|x lex Hx Hl IH]; cbn [app num_end List.length].
  - apply numchar_false in Hc. rewrite Hc; auto.
  - apply numchar_spec in Hx. rewrite Hx, IH. auto.
Qed.
Lemma num_end_none b : num_end b = None <-> Forall number_byte b.
Proof.
  induction b as [|x b IH]; cbn [num_end]; [split; auto|].
  destruct (numchar x) eqn:Hx.
  - apply numchar_spec in Hx. destruct (num_end b); cbn [option_map].
    + split; [discriminate|]. intros H; inversion H; subst.
      assert (@None nat = Some n) by (rewrite <- (proj2 IH); auto). discriminate.
    + split; auto. intros _. constructor; auto. apply IH; auto.
  - apply numchar_false in Hx. split; [discriminate|]. intros H; inversion H; tauto.
Qed.
Lemma num_end_some b i : num_end b = Some i ->
  exists c r, b = firstn i b ++ c :: r /\ skipn i b = c :: r /\ ~ number_byte c /\
    Forall number_byte (firstn i b) /\ List.length (firstn i b) = i.
Proof.
  revert i; induction b as [|x b IH]; intros i; cbn [num_end]; [discriminate|].
  destruct (numchar x) eqn:Hx.
  - destruct (num_end b) as [j|]; [|discriminate]. intros H; injection H as <-.
    destruct (IH j eq_refl) as (c & r & H1 & H2 & H3 & H4 & H5).
    exists c, r. cbn [firstn skipn app List.length]. apply numchar_spec in Hx.
    repeat split; auto; congruence.
  - intros H; injection H as <-. apply numchar_false in Hx. exists x, b. cbn. auto.
Qed.

Lemma dot_spec ns : existsb (fun c => c =? 46) ns = true <-> In 46 ns.
Proof.
  rewrite existsb_exists. split.
  - intros (x & Hx & He). apply Z.eqb_eq in He. congruence.
  - intros H. exists 46. auto.
Qed.

Lemma lower_is x c : 97 <= c <= 122 -> ascii_lower x = c <-> x = c \/ x = up c.
Proof. unfold ascii_lower, up. intros. destruct ((65 <=? x) && (x <=? 90)) eqn:Hx; lia. Qed.
Lemma fold_spells w a b c : 97 <= a <= 122 -> 97 <= b <= 122 -> 97 <= c <= 122 ->
  fold_is w [a; b; c] = true <-> spells w a b c.
Proof.
  intros Ha Hb Hc. unfold fold_is, spells. rewrite beq_eq. split.
  - intros H. destruct w as [|x [|y [|z [|]]]]; simpl in H; try discriminate.
    injection H as H1 H2 H3. exists x, y, z. rewrite <- !lower_is by lia. auto.
  - intros (x & y & z & -> & H1 & H2 & H3). apply lower_is in H1, H2, H3; [|lia..].
    simpl. congruence.
Qed.
