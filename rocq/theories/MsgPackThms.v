(** Lemmas behind the MessagePack properties. *)
From Verif Require Import Base Values MsgPackModel MsgPackSpec Tactics MsgPackFuel MsgPackDecode MsgPackEncode.

Section Thms.
Context (E : env).

(** ** Round trip *)
Lemma upserts_apart {A} (kvs acc : list (bytes * A)) :
  keys_apart E (acc ++ kvs) -> upserts (key_match E) kvs acc = acc ++ kvs.
Proof.
  revert acc; induction kvs as [|[k x] r IH]; intros acc H; cbn [upserts fold_left].
  - rewrite app_nil_r; reflexivity.
  - assert (Hu : upsert (key_match E) acc k x = acc ++ [(k, x)]).
    { clear IH. revert H; induction acc as [|[k' y] acc IH]; intros H; [reflexivity|].
      cbn [app] in H. inversion H; subst. cbn [upsert].
      rewrite Forall_app in H2. destruct H2 as [_ H2]. inversion H2; subst. cbn [fst] in *.
      rewrite H4. rewrite IH by assumption. reflexivity. }
    cbn [fst snd]. rewrite Hu. unfold upserts in IH. rewrite IH.
    + rewrite <- app_assoc; reflexivity.
    + rewrite <- app_assoc; exact H.
Qed.

Lemma wrap64_i64 n : i64_ok n -> wrap64 n = n.
Proof. unfold i64_ok, wrap64; intros; zif. Qed.

Lemma plain_tree v : fits E v -> plain E v ->
  exists m, message_of E v = Some m /\ tree_of E m = v /\ ext_clean m.
Proof.
  induction v using value_ind'; intros Hf Hp; cbn [message_of fits plain] in *; try contradiction;
    try (eexists; split; [reflexivity|split; reflexivity || exact I]; fail).
  - destruct Hf as [Hl Hf]. destruct Hp as (Hu & Hk & Hp).
    assert (Hms : exists ms, opt_all (map (fun kv => option_map (pair (fst kv)) (message_of E (snd kv))) kvs) = Some ms
      /\ map (fun kv => (fst kv, tree_of E (snd kv))) ms = kvs
      /\ fold_right (fun kv P => ext_clean (snd kv) /\ P) True ms).
    { clear Hu Hk Hl. induction H as [|[k x] l Hx _ IH].
      - exists []; repeat split.
      - cbn [fold_right fst snd] in *. destruct Hf as (_ & Hfx & Hfl). destruct Hp as [Hpx Hpl].
        destruct (Hx Hfx Hpx) as (m & Hm & Ht & Hc). destruct (IH Hfl Hpl) as (ms & Hms & Hts & Hcs).
        exists ((k, m) :: ms). cbn [map opt_all fst snd fold_right option_map].
        rewrite Hm. cbn [option_map]. rewrite Hms, Hts, Ht. auto. }
    destruct Hms as (ms & Hms & Hts & Hcs). exists (MMap ms). rewrite Hms. split; [reflexivity|].
    split; [|exact Hcs]. destruct ms as [|kv ms].
    + simpl in Hts; subst kvs. simpl in Hu; subst u. reflexivity.
    + cbn [tree_of]. rewrite Hts. rewrite upserts_apart by exact Hk. cbn [app].
      destruct kvs; [discriminate|]. simpl in Hu; subst u; reflexivity.
  - destruct Hf as [Hl Hf].
    assert (Hms : exists ms, opt_all (map (message_of E) l) = Some ms
      /\ map (tree_of E) ms = l /\ fold_right (fun x P => ext_clean x /\ P) True ms).
    { clear Hl. induction H as [|x l Hx _ IH].
      - exists []; repeat split.
      - cbn [fold_right] in *. destruct Hf as [Hfx Hfl]. destruct Hp as [Hpx Hpl].
        destruct (Hx Hfx Hpx) as (m & Hm & Ht & Hc). destruct (IH Hfl Hpl) as (ms & Hms & Hts & Hcs).
        exists (m :: ms). cbn [map opt_all fold_right].
        rewrite Hm. cbn [option_map]. rewrite Hms, Hts, Ht. auto. }
    destruct Hms as (ms & Hms & Hts & Hcs). exists (MArr ms). rewrite Hms. split; [reflexivity|].
    split; [|exact Hcs]. cbn [tree_of]. rewrite Hts; reflexivity.
  - subst e. exists (MInt n). split; [reflexivity|]. split; [|exact I]. cbn [tree_of].
    rewrite wrap64_i64 by assumption. reflexivity.
  - rewrite Z.mod_small by assumption. eexists; split; [reflexivity|split; reflexivity || exact I].
  - destruct (x_totime E r) as [s n] eqn:Ht. exists (MTime s n). split; [reflexivity|].
    split; [|exact I]. cbn [tree_of]. rewrite Hp; reflexivity.
  - subst e. eexists; split; [reflexivity|split; reflexivity || exact I].
  - destruct Hp as [-> Hp]. destruct b as [|t p]; [contradiction|].
    exists (MExt t p). split; [reflexivity|]. split; [reflexivity|exact Hp].
Qed.

Theorem mp_roundtrip v rest : fits E v -> plain E v -> no_fixext v ->
  mp_decode E (Value2MsgPack E v [] ++ rest) = Ok (v, rest).
Proof.
  intros Hf Hp Hx. destruct (plain_tree v Hf Hp) as (m & Hm & Ht & Hc).
  rewrite <- Ht at 2. apply wire_dec; auto. apply V2M_wire; auto.
Qed.

(** The same for values that are not in decoder form (raw strings, stale fields, nil). *)
Theorem mp_roundtrip_gen v m rest : fits E v -> no_fixext v -> message_of E v = Some m ->
  ext_clean m -> mp_decode E (Value2MsgPack E v [] ++ rest) = Ok (tree_of E m, rest).
Proof. intros Hf Hx Hm Hc. apply wire_dec; auto. apply V2M_wire; auto. Qed.

(** ** Integers *)
Lemma int_wire_range n b : int_wire n b -> - 2 ^ 63 <= n < 2 ^ 64.
Proof.
  intros H; inversion H; subst; unfold signed; simpl Z.of_nat; try lia;
    match goal with
    | H : be_num 1 _ _ |- _ => apply be_num1 in H as [_ H]
    | H : be_num 2 _ _ |- _ => apply be_num2 in H as [H _]
    | H : be_num 4 _ _ |- _ => apply be_num4 in H as [H _]
    | H : be_num 8 _ _ |- _ => apply be_num8 in H as [H _]
    end; zif.
Qed.

Lemma int_shortest n b : i64_ok n -> int_wire n b -> (length (writeInt n []) <= length b)%nat.
Proof.
  unfold i64_ok; intros Hn H.
  assert (HL : length (writeInt n []) =
    if (-32 <=? n) && (n <=? 127) then 1%nat else if (-128 <=? n) && (n <=? 255) then 2%nat
    else if (-32768 <=? n) && (n <=? 65535) then 3%nat
    else if (-2147483648 <=? n) && (n <=? 4294967295) then 5%nat else 9%nat).
  { unfold writeInt, bytes4, bytes8; cbn [app].
    repeat match goal with |- context [if ?c then _ else _] => destruct c eqn:? end;
      try reflexivity; lia. }
  assert (HB : (length b = 1%nat /\ -32 <= n <= 127) \/ (length b = 2%nat /\ -128 <= n <= 255)
     \/ (length b = 3%nat /\ -32768 <= n <= 65535)
     \/ (length b = 5%nat /\ -2147483648 <= n <= 4294967295) \/ length b = 9%nat).
  { clear HL Hn. inversion H as [| |p B|p B|p B|p B|p u B Hs|p u B Hs|p u B Hs|p u B Hs]; subst b; cbn [length].
    - left; split; [reflexivity|lia].
    - left; split; [reflexivity|lia].
    - rewrite (proj1 B). apply be_num1 in B as [_ B]. right; left; split; [reflexivity|lia].
    - rewrite (proj1 B). apply be_num2 in B as [B _]. do 2 right; left; split; [reflexivity|lia].
    - rewrite (proj1 B). apply be_num4 in B as [B _]. do 3 right; left; split; [reflexivity|lia].
    - rewrite (proj1 B). do 4 right; reflexivity.
    - rewrite (proj1 B). apply be_num1 in B as [_ B]. right; left; split; [reflexivity|].
      clear H. unfold signed in Hs; simpl Z.of_nat in Hs. dhyp Hs; lia.
    - rewrite (proj1 B). apply be_num2 in B as [B _]. do 2 right; left; split; [reflexivity|].
      clear H. unfold signed in Hs; simpl Z.of_nat in Hs. dhyp Hs; lia.
    - rewrite (proj1 B). apply be_num4 in B as [B _]. do 3 right; left; split; [reflexivity|].
      clear H. unfold signed in Hs; simpl Z.of_nat in Hs. dhyp Hs; lia.
    - rewrite (proj1 B). do 4 right; reflexivity. }
  rewrite HL; clear HL H. zif.
Qed.

(** ** Locality *)
Lemma u8_app b q n t : parseUint8 b = Ok (n, t) -> parseUint8 (b ++ q) = Ok (n, t ++ q).
Proof. destruct b; intros H; inversion H; subst; reflexivity. Qed.
Lemma u16_app b q n t : parseUint16 b = Ok (n, t) -> parseUint16 (b ++ q) = Ok (n, t ++ q).
Proof. do 2 (destruct b; [discriminate|]); intros H; inversion H; subst; reflexivity. Qed.
Lemma u32_app b q n t : parseUint32 b = Ok (n, t) -> parseUint32 (b ++ q) = Ok (n, t ++ q).
Proof. do 4 (destruct b; [discriminate|]); intros H; inversion H; subst; reflexivity. Qed.
Lemma u64_app b q n t : parseUint64 b = Ok (n, t) -> parseUint64 (b ++ q) = Ok (n, t ++ q).
Proof. do 8 (destruct b; [discriminate|]); intros H; inversion H; subst; reflexivity. Qed.
Lemma be32_app b q n : be32 b = Ok n -> be32 (b ++ q) = Ok n.
Proof.
  unfold be32. destruct (parseUint32 b) as [[m t]| | |] eqn:H; try discriminate.
  rewrite (u32_app _ q _ _ H). auto.
Qed.
Lemma be64_app b q n : be64 b = Ok n -> be64 (b ++ q) = Ok n.
Proof.
  unfold be64. destruct (parseUint64 b) as [[m t]| | |] eqn:H; try discriminate.
  rewrite (u64_app _ q _ _ H). auto.
Qed.

Ltac uapp q := repeat match goal with
  | H : parseUint8 ?b = Ok (_, _) |- context [parseUint8 (?b ++ q)] => rewrite (u8_app _ q _ _ H)
  | H : parseUint16 ?b = Ok (_, _) |- context [parseUint16 (?b ++ q)] => rewrite (u16_app _ q _ _ H)
  | H : parseUint32 ?b = Ok (_, _) |- context [parseUint32 (?b ++ q)] => rewrite (u32_app _ q _ _ H)
  | H : parseUint64 ?b = Ok (_, _) |- context [parseUint64 (?b ++ q)] => rewrite (u64_app _ q _ _ H)
  end.

Lemma parseLen_app c b q n t : parseLen c b = Ok (n, t) -> parseLen c (b ++ q) = Ok (n, t ++ q).
Proof.
  unfold parseLen; intros H. repeat dhyp H; try discriminate; uapp q; auto.
  inversion H; subst; reflexivity.
Qed.
Lemma parseExtLen_app c b q n t : parseExtLen c b = Ok (n, t) -> parseExtLen c (b ++ q) = Ok (n, t ++ q).
Proof.
  unfold parseExtLen; intros H. repeat dhyp H; try discriminate; uapp q; auto;
    inversion H; subst; reflexivity.
Qed.
Lemma parseArrLen_app c b q n t : parseArrLen c b = Ok (n, t) -> parseArrLen c (b ++ q) = Ok (n, t ++ q).
Proof.
  unfold parseArrLen; intros H. repeat dhyp H; try discriminate; uapp q; auto;
    inversion H; subst; reflexivity.
Qed.
Lemma parseMapLen_app c b q n t : parseMapLen c b = Ok (n, t) -> parseMapLen c (b ++ q) = Ok (n, t ++ q).
Proof.
  unfold parseMapLen; intros H. repeat dhyp H; try discriminate; inversion H; subst; uapp q; auto.
Qed.
Lemma parseStr_app c b q s t : parseStr c b = Ok (s, t) -> parseStr c (b ++ q) = Ok (s, t ++ q).
Proof.
  unfold parseStr; intros H.
  destruct (parseLen c b) as [[n b']| | |] eqn:Hl; try discriminate.
  rewrite (parseLen_app _ _ q _ _ Hl).
  destruct (n <=? 0) eqn:Hn; [inversion H; subst; reflexivity|].
  destruct (n <=? zlen b') eqn:Hz; [|discriminate]. inversion H; subst; clear H.
  rewrite zlen_app. replace (n <=? zlen b' + zlen q) with true by (pose proof (zlen_nonneg q); lia).
  destruct (zlen_firstn_ok b' q n) as [-> ->]; [lia|]. reflexivity.
Qed.
Lemma parseExtLen_nonneg c b n t : bytes_ok b -> parseExtLen c b = Ok (n, t) -> 0 <= n.
Proof.
  unfold parseExtLen; intros Hb H. repeat dhyp H; try discriminate; try (inversion H; subst; lia);
  unfold parseUint8, parseUint16, parseUint32 in H; repeat dhyp H; try discriminate;
  inversion H; subst; unfold bytes_ok, byte_ok in Hb;
  repeat match goal with H : Forall _ (_ :: _) |- _ => inversion H; clear H; subst end; lia.
Qed.
Lemma parseLen_nonneg c b n t : bytes_ok b -> parseLen c b = Ok (n, t) -> 0 <= n.
Proof.
  unfold parseLen; intros Hb H. repeat dhyp H; try discriminate; try (inversion H; subst; lia);
  unfold parseUint8, parseUint16, parseUint32 in H; repeat dhyp H; try discriminate;
  inversion H; subst; unfold bytes_ok, byte_ok in Hb;
  repeat match goal with H : Forall _ (_ :: _) |- _ => inversion H; clear H; subst end; lia.
Qed.

Lemma parseExt_app c b q v t : bytes_ok b ->
  parseExt E c b = Ok (v, t) -> parseExt E c (b ++ q) = Ok (v, t ++ q).
Proof.
  unfold parseExt; intros Hb H.
  apply bind_ok in H as [[n b'] [Hl H]]. pose proof (parseExtLen_nonneg _ _ _ _ Hb Hl) as Hn.
  rewrite (parseExtLen_app _ _ q _ _ Hl). cbn [bind].
  destruct (zlen b' <? n) eqn:Hz; [discriminate|].
  destruct (zlen b' <? n + 1) eqn:Hz1; [discriminate|].
  pose proof (zlen_nonneg q) as Hq.
  rewrite zlen_app. replace (zlen b' + zlen q <? n) with false by lia.
  replace (zlen b' + zlen q <? n + 1) with false by lia.
  destruct (zlen_firstn_ok b' q (n + 1)) as [Hf Hs]; [lia|].
  destruct b' as [|ty b1]; [discriminate|]. rewrite Hf, Hs. cbn [app].
  destruct (IsTime c ty); [|inversion H; subst; reflexivity].
  destruct (c =? CodeFixExt4).
  { apply bind_ok in H as [s [H1 H]]. rewrite (be32_app _ q _ H1). cbn [bind].
    inversion H; subst; reflexivity. }
  destruct (c =? CodeFixExt8).
  { apply bind_ok in H as [s [H1 H]]. rewrite (be64_app _ q _ H1). cbn [bind].
    inversion H; subst; reflexivity. }
  apply bind_ok in H as [s [H1 H]]. rewrite (be32_app _ q _ H1). cbn [bind].
  destruct (zlen b1 <? 4) eqn:Hb1; [discriminate|].
  apply bind_ok in H as [u [H2 H]]. rewrite zlen_app.
  replace (zlen b1 + zlen q <? 4) with false by lia.
  destruct (zlen_firstn_ok b1 q 4) as [_ Hs4]; [lia|]. change (Z.to_nat 4) with 4%nat in Hs4.
  rewrite Hs4, (be64_app _ q _ H2). cbn [bind]. inversion H; subst; reflexivity.
Qed.

Lemma parseScalar_app c b q v t : bytes_ok b -> parseScalar E c b = Ok (v, t) ->
  parseScalar E c (b ++ q) = Ok (v, t ++ q) \/
  (v = VNilP /\ t = [] /\ parseScalar E c (b ++ q) = Ok (v, [])).
Proof.
  unfold parseScalar; intros Hb H.
  repeat (match type of H with
   | (if ?x then _ else _) = _ => destruct x eqn:?
   end);
  repeat match type of H with
  | bind _ _ = Ok _ => let p := fresh "p" in apply bind_ok in H as [p [? H]]; destruct p
  end; try (left; uapp q; inversion H; subst; reflexivity).
  - left. erewrite parseStr_app by eassumption. inversion H; subst; reflexivity.
  - left. erewrite parseLen_app by eassumption. cbn [bind].
    match goal with HL : parseLen _ _ = Ok _ |- _ => pose proof (parseLen_nonneg _ _ _ _ Hb HL) end.
    destruct (z <=? zlen b0) eqn:Hz; [|discriminate]. inversion H; subst.
    rewrite zlen_app. replace (z <=? zlen b0 + zlen q) with true by (pose proof (zlen_nonneg q); lia).
    destruct (zlen_firstn_ok b0 q z) as [-> ->]; [lia|]. reflexivity.
  - left. apply parseExt_app; auto.
  - right. inversion H; subst; auto.
Qed.

Lemma set_key_in u kvs k x : exists u' kvs' k', set_key_value E (VObject u kvs) k x = VObject u' kvs' /\ In (k', x) kvs'.
Proof.
  cbn [set_key_value]. unfold obj_set.
  destruct (index_by_name E u kvs k) as [[i|] [u' kvs']] eqn:Hi.
  2:{ exists u', (kvs' ++ [(k, x)]), k. split; [reflexivity|]. apply in_or_app; simpl; auto. }
  assert (Hb : (i < length kvs')%nat).
  { assert (Hfk : forall (l : list (bytes * value)) n j, find_key E l n = Some j -> (j < length l)%nat).
    { induction l as [|[a y] l IH]; simpl; intros n j Hj; [discriminate|].
      destruct (key_match E a n); [inversion Hj; lia|].
      destruct (find_key E l n) eqn:Hf; [|discriminate]. simpl in Hj; inversion Hj; subst.
      apply IH in Hf; lia. }
    unfold index_by_name in Hi. destruct (negb u && no_backslash k).
    - destruct (find_key E kvs k) eqn:Hf; inversion Hi; subst; eauto.
    - inversion Hi; subst; eauto. }
  destruct (nth_error kvs' i) as [[k' y]|] eqn:Hn.
  2:{ apply nth_error_None in Hn; lia. }
  exists u', (set_val i x kvs'), k'. split; [reflexivity|].
  unfold set_val. rewrite Hn. clear Hi Hn. revert i Hb.
  induction kvs' as [|kv l IH]; intros i Hb; simpl in Hb; [lia|].
  destruct i; simpl; auto. right. apply IH; lia.
Qed.

Definition loc (r r' : res (value * bytes)) (q : bytes) (v : value) (t : bytes) : Prop :=
  r' = Ok (v, t ++ q) \/ (has_nil v /\ t = [] /\ r' = Ok (v, [])).

Lemma bytes_ok_skip b t p : b = p ++ t -> bytes_ok b -> bytes_ok t.
Proof. intros -> H. apply Forall_app in H; tauto. Qed.

(** The unread part is a suffix of the input. *)
Definition suffix (t b : bytes) := exists p, b = p ++ t.
Lemma suffix_refl b : suffix b b. Proof. exists []; reflexivity. Qed.
Lemma suffix_nil b : suffix [] b. Proof. exists b; rewrite app_nil_r; reflexivity. Qed.
Lemma suffix_cons x t b : suffix t b -> suffix t (x :: b).
Proof. intros [p ->]; exists (x :: p); reflexivity. Qed.
Lemma suffix_trans a b c : suffix a b -> suffix b c -> suffix a c.
Proof. intros [p ->] [q ->]; exists (q ++ p); rewrite app_assoc; reflexivity. Qed.
Lemma suffix_skipn n b : suffix (skipn n b) b.
Proof. exists (firstn n b); rewrite firstn_skipn; reflexivity. Qed.
Lemma suffix_ok t b : suffix t b -> bytes_ok b -> bytes_ok t.
Proof. intros [p H]; eapply bytes_ok_skip; eauto. Qed.

Lemma u8_suf b n t : parseUint8 b = Ok (n, t) -> suffix t b.
Proof. destruct b; intros H; inversion H; subst. apply suffix_cons, suffix_refl. Qed.
Lemma u16_suf b n t : parseUint16 b = Ok (n, t) -> suffix t b.
Proof. do 2 (destruct b; [discriminate|]); intros H; inversion H; subst. repeat apply suffix_cons; apply suffix_refl. Qed.
Lemma u32_suf b n t : parseUint32 b = Ok (n, t) -> suffix t b.
Proof. do 4 (destruct b; [discriminate|]); intros H; inversion H; subst. repeat apply suffix_cons; apply suffix_refl. Qed.
Lemma u64_suf b n t : parseUint64 b = Ok (n, t) -> suffix t b.
Proof. do 8 (destruct b; [discriminate|]); intros H; inversion H; subst. repeat apply suffix_cons; apply suffix_refl. Qed.
Hint Resolve u8_suf u16_suf u32_suf u64_suf suffix_refl suffix_nil suffix_skipn : suf.

Lemma parseLen_suf c b n t : parseLen c b = Ok (n, t) -> suffix t b.
Proof. unfold parseLen; intros H; repeat dhyp H; try discriminate; eauto with suf. inversion H; subst; auto with suf. Qed.
Lemma parseExtLen_suf c b n t : parseExtLen c b = Ok (n, t) -> suffix t b.
Proof. unfold parseExtLen; intros H; repeat dhyp H; try discriminate; eauto with suf; inversion H; subst; auto with suf. Qed.
Lemma parseArrLen_suf c b n t : parseArrLen c b = Ok (n, t) -> suffix t b.
Proof. unfold parseArrLen; intros H; repeat dhyp H; try discriminate; eauto with suf; inversion H; subst; auto with suf. Qed.
Lemma parseMapLen_suf c b n t : parseMapLen c b = Ok (n, t) -> suffix t b.
Proof. unfold parseMapLen; intros H; repeat dhyp H; try discriminate; inversion H; subst; eauto with suf. Qed.
Lemma parseStr_suf c b s t : parseStr c b = Ok (s, t) -> suffix t b.
Proof.
  unfold parseStr; intros H. destruct (parseLen c b) as [[n b']| | |] eqn:Hl; try discriminate.
  apply parseLen_suf in Hl. repeat dhyp H; try discriminate; inversion H; subst; auto.
  eapply suffix_trans; [apply suffix_skipn|auto].
Qed.
Lemma parseScalar_suf c b v t : parseScalar E c b = Ok (v, t) -> suffix t b.
Proof.
  unfold parseScalar; intros H.
  repeat (match type of H with
   | (if ?x then _ else _) = _ => destruct x eqn:?
   end);
  repeat match type of H with
  | bind _ _ = Ok _ => let p := fresh "p" in apply bind_ok in H as [p [? H]]; destruct p
  end; try (inversion H; subst; eauto using parseStr_suf with suf; fail).
  - match goal with HL : parseLen _ _ = Ok _ |- _ => apply parseLen_suf in HL end.
    destruct (z <=? zlen b0); inversion H; subst.
    eapply suffix_trans; [apply suffix_skipn|auto].
  - unfold parseExt in H. apply bind_ok in H as [[n b'] [Hl H]]. apply parseExtLen_suf in Hl.
    assert (suffix t b' -> suffix t b) as Hgo by (intros; eapply suffix_trans; eauto).
    apply Hgo.
    repeat dhyp H; try discriminate;
    repeat (apply bind_ok in H as [? [? H]]); try (inversion H; subst; auto with suf; fail).
    all: repeat dhyp H; try discriminate; inversion H; subst; auto with suf.
Qed.

Lemma dec_suf_all : forall k,
  (forall b v t, (length b < k)%nat -> dec E b = Ok (v, t) -> suffix t b) /\
  (forall n b acc v t, (length b < k)%nat -> decarr E n b acc = Ok (v, t) -> suffix t b) /\
  (forall n b acc v t, (length b < k)%nat -> decmap E n b acc = Ok (v, t) -> suffix t b).
Proof.
  induction k as [|k (IV & IA & IM)]; [repeat split; intros; lia|].
  assert (IV' : forall b v t, (length b < S k)%nat -> dec E b = Ok (v, t) -> suffix t b).
  { intros [|c b] v t Hk H; rewrite dec_eq in H; [discriminate|]. apply suffix_cons. cbn [length] in Hk.
    destruct (IsStr c); [eapply parseScalar_suf; eauto|].
    destruct (IsArray c).
    { apply bind_ok in H as [[n b'] [Hl H]]. pose proof (parseArrLen_len _ _ _ _ Hl).
      apply parseArrLen_suf in Hl. destruct (n =? 0); [inversion H; subst; auto|].
      apply IA in H; [|lia]. eapply suffix_trans; eauto. }
    destruct (IsMap c); [|eapply parseScalar_suf; eauto].
    apply bind_ok in H as [[n b'] [Hl H]]. pose proof (parseMapLen_len _ _ _ _ Hl).
    apply parseMapLen_suf in Hl. destruct (n =? 0); [inversion H; subst; auto|].
    destruct b' as [|c' b']; [discriminate|]. destruct (IsStr c'); [|discriminate].
    apply IM in H; [|lia]. eapply suffix_trans; eauto. }
  repeat split; auto.
  - intros n b acc v t Hk H. rewrite decarr_eq in H.
    destruct (n <=? 0); [inversion H; subst; apply suffix_refl|].
    apply bind_ok in H as [[x b'] [Hv H]]. pose proof (dec_len _ _ _ _ Hv). apply IV' in Hv; [|lia].
    apply IA in H; [|lia]. eapply suffix_trans; eauto.
  - intros n b acc v t Hk H. rewrite decmap_eq in H.
    destruct (n <=? 0); [inversion H; subst; apply suffix_refl|].
    destruct b as [|c b]; [discriminate|]. cbn [length] in Hk. apply suffix_cons.
    apply bind_ok in H as [[s b'] [Hs H]]. pose proof (parseStr_len _ _ _ _ Hs). apply parseStr_suf in Hs.
    apply bind_ok in H as [[x b''] [Hv H]]. pose proof (dec_len _ _ _ _ Hv). apply IV' in Hv; [|lia].
    apply IM in H; [|lia]. eapply suffix_trans; [|exact Hs]. eapply suffix_trans; eauto.
Qed.
Lemma dec_suf b v t : dec E b = Ok (v, t) -> suffix t b.
Proof. apply (proj1 (dec_suf_all (S (length b)))); lia. Qed.

Lemma decarr_nil n acc v t : decarr E n [] acc = Ok (v, t) -> v = VArray acc /\ t = [].
Proof.
  rewrite decarr_eq. destruct (n <=? 0); [intros H; inversion H; auto|].
  rewrite dec_eq; discriminate.
Qed.
Lemma decmap_nil n acc v t : decmap E n [] acc = Ok (v, t) -> v = acc /\ t = [].
Proof. rewrite decmap_eq. destruct (n <=? 0); [intros H; inversion H; auto|discriminate]. Qed.

Lemma dec_loc_all : forall k,
  (forall b v t q, (length b < k)%nat -> bytes_ok b -> dec E b = Ok (v, t) -> loc (dec E b) (dec E (b ++ q)) q v t) /\
  (forall n b acc v t q, (length b < k)%nat -> bytes_ok b -> decarr E n b acc = Ok (v, t) ->
      loc (decarr E n b acc) (decarr E n (b ++ q) acc) q v t) /\
  (forall n b u kvs v t q, (length b < k)%nat -> bytes_ok b -> decmap E n b (VObject u kvs) = Ok (v, t) ->
      loc (decmap E n b (VObject u kvs)) (decmap E n (b ++ q) (VObject u kvs)) q v t).
Proof.
  unfold loc.
  induction k as [|k (IV & IA & IM)]; [repeat split; intros; lia|].
  assert (IV' : forall b v t q, (length b < S k)%nat -> bytes_ok b -> dec E b = Ok (v, t) ->
     dec E (b ++ q) = Ok (v, t ++ q) \/ has_nil v /\ t = [] /\ dec E (b ++ q) = Ok (v, [])).
  { intros [|c b] v t q Hk Hb H; rewrite dec_eq in H; [discriminate|].
    cbn [length] in Hk. inversion Hb; subst. cbn [app]. rewrite dec_eq.
    assert (HS : forall v t, parseScalar E c b = Ok (v, t) ->
       parseScalar E c (b ++ q) = Ok (v, t ++ q) \/ has_nil v /\ t = [] /\ parseScalar E c (b ++ q) = Ok (v, [])).
    { intros v' t' H'. destruct (parseScalar_app c b q v' t') as [|(-> & -> & ?)]; auto.
      right; split; [constructor|auto]. }
    destruct (IsStr c); [auto|].
    destruct (IsArray c).
    { apply bind_ok in H as [[n b'] [Hl H]]. pose proof (parseArrLen_len _ _ _ _ Hl).
      pose proof (parseArrLen_suf _ _ _ _ Hl) as Hsf.
      rewrite (parseArrLen_app _ _ q _ _ Hl). cbn [bind].
      destruct (n =? 0); [inversion H; subst; auto|].
      apply IA; auto; [lia|eapply suffix_ok; eauto]. }
    destruct (IsMap c); [|auto].
    apply bind_ok in H as [[n b'] [Hl H]]. pose proof (parseMapLen_len _ _ _ _ Hl).
    pose proof (parseMapLen_suf _ _ _ _ Hl) as Hsf.
    rewrite (parseMapLen_app _ _ q _ _ Hl). cbn [bind].
    destruct (n =? 0); [inversion H; subst; auto|].
    destruct b' as [|c' b']; [discriminate|]. cbn [app]. destruct (IsStr c'); [|discriminate].
    apply (IM n (c' :: b')); auto; [lia|eapply suffix_ok; eauto]. }
  repeat split; auto.
  - intros n b acc v t q Hk Hb H. rewrite decarr_eq in H. rewrite decarr_eq.
    destruct (n <=? 0) eqn:Hn; [inversion H; subst; auto|].
    apply bind_ok in H as [[x b'] [Hv H]].
    pose proof (dec_len _ _ _ _ Hv). pose proof (dec_suf _ _ _ Hv) as Hsf.
    destruct (IV' _ _ _ q Hk Hb Hv) as [Hq|(Hnil & -> & Hq)]; rewrite Hq; cbn [bind].
    + apply IA; auto; [lia|eapply suffix_ok; eauto].
    + right. pose proof H as H'. apply decarr_nil in H' as [-> ->]. repeat split; auto.
      eapply hn_arr; [apply in_or_app; right; left; reflexivity|exact Hnil].
  - intros n b u kvs v t q Hk Hb H. rewrite decmap_eq in H. rewrite decmap_eq.
    destruct (n <=? 0) eqn:Hn; [inversion H; subst; auto|].
    destruct b as [|c b]; [discriminate|]. cbn [app]. inversion Hb; subst. cbn [length] in Hk.
    apply bind_ok in H as [[s b'] [Hs H]]. pose proof (parseStr_len _ _ _ _ Hs).
    pose proof (parseStr_suf _ _ _ _ Hs) as Hsf0.
    rewrite (parseStr_app _ _ q _ _ Hs). cbn [bind].
    apply bind_ok in H as [[x b''] [Hv H]].
    pose proof (dec_len _ _ _ _ Hv). pose proof (dec_suf _ _ _ Hv) as Hsf.
    assert (Hb' : bytes_ok b') by (eapply suffix_ok; eauto).
    destruct (set_key_in u kvs s x) as (u' & kvs' & k' & Hset & Hin).
    rewrite Hset in H.
    assert (Hk' : (length b' < S k)%nat) by lia.
    destruct (IV' _ _ _ q Hk' Hb' Hv) as [Hq|(Hnil & -> & Hq)]; rewrite Hq; cbn [bind]; rewrite Hset.
    + apply IM; auto; [lia|eapply suffix_ok; eauto].
    + right. pose proof H as H'. apply decmap_nil in H' as [-> ->]. repeat split; auto.
      eapply hn_obj; eauto.
Qed.

Theorem dec_local b v t q : bytes_ok b -> mp_decode E b = Ok (v, t) ->
  mp_decode E (b ++ q) = Ok (v, t ++ q) \/ (has_nil v /\ t = [] /\ mp_decode E (b ++ q) = Ok (v, [])).
Proof. intros Hb H. apply (proj1 (dec_loc_all (S (length b)))); auto. Qed.

(** ** Decoded conforming messages contain no nil; truncation *)
Lemma upsert_in {A} same (l : list (bytes * A)) k x k' y :
  In (k', y) (upsert same l k x) -> y = x \/ In (k', y) l.
Proof.
  induction l as [|[a z] l IH]; simpl; intros H.
  - destruct H as [H|[]]; inversion H; auto.
  - destruct (same a k); destruct H as [H|H]; try (inversion H; subst; auto; fail); auto.
    destruct (IH H); auto.
Qed.
Lemma upserts_in {A} same (l acc : list (bytes * A)) k' y :
  In (k', y) (upserts same l acc) -> (exists k, In (k, y) l) \/ In (k', y) acc.
Proof.
  revert acc; induction l as [|[a z] l IH]; cbn [upserts fold_left]; intros acc H; auto.
  apply IH in H as [[k H]|H]; [left; exists k; right; auto|].
  apply upsert_in in H as [->|H]; auto. left; exists a; left; auto.
Qed.

Fixpoint mval_ind' (P : mval -> Prop)
  (Harr : forall l, Forall P l -> P (MArr l))
  (Hmap : forall l, Forall (fun kv => P (snd kv)) l -> P (MMap l))
  (Hother : forall m, (forall l, m <> MArr l) -> (forall l, m <> MMap l) -> P m)
  (m : mval) : P m.
Proof.
  destruct m; try (apply Hother; intros; discriminate).
  - apply Harr. induction l as [|x l IH]; constructor; [apply mval_ind'; assumption|assumption].
  - apply Hmap. induction kvs as [|x l IH]; constructor; [apply mval_ind'; assumption|assumption].
Qed.

Lemma tree_no_nil m : ~ has_nil (tree_of E m).
Proof.
  induction m using mval_ind'.
  - cbn [tree_of]. intros Hn. inversion Hn; subst. apply in_map_iff in H1 as (m & <- & Hin).
    rewrite Forall_forall in H. apply (H m Hin); auto.
  - rewrite tree_of_map. destruct l as [|kv l]; [intros Hn; inversion Hn; subst; contradiction|].
    intros Hn. revert H Hn. generalize (kv :: l) as L. intros L H Hn. inversion Hn; subst. apply upserts_in in H2 as [[k' H2]|[]].
    apply (in_map_iff (kv_tree E)) in H2 as ((k0 & m) & Heq & Hin). unfold kv_tree in Heq; simpl in Heq.
    inversion Heq; subst. rewrite Forall_forall in H. apply (H (k', m)); auto.
  - destruct m; try (exfalso; eapply H; reflexivity); try (exfalso; eapply H0; reflexivity);
      cbn [tree_of]; try destruct b; intros Hn; inversion Hn.
Qed.

Lemma wire_bytes_ok :
  (forall m b, wire m b -> bytes_ok b) /\ (forall l b, wires l b -> bytes_ok b) /\
  (forall l b, kwires l b -> bytes_ok b).
Proof.
  assert (HB : forall c p w n, byte_ok c -> be_num w p n -> bytes_ok (c :: p)).
  { intros c p w n Hc (_ & Hp & _). constructor; auto. }
  assert (Hc : forall c, 0 <= c < 256 -> byte_ok c) by (intros; assumption).
  assert (H1 : forall c, 0 <= c < 256 -> bytes_ok [c]) by (intros; constructor; [apply Hc; lia|constructor]).
  assert (HS : forall n h, str_hdr n h -> bytes_ok h).
  { intros n h H; inversion H; subst; try (eapply HB; [apply Hc; lia|eassumption]). apply H1; lia. }
  apply wire_mutind; intros; try (apply H1; lia);
    try (eapply HB; [apply Hc; lia|eassumption]).
  - inversion i; subst; try (eapply HB; [apply Hc; lia|eassumption]); apply H1; lia.
  - apply Forall_app; split; [eapply HS; eauto|auto].
  - apply Forall_app; split; auto.
    match goal with H : bin_hdr _ _ |- _ => inversion H; subst end; (eapply HB; [apply Hc; lia|eassumption]).
  - apply Forall_app; split; [|constructor; auto].
    match goal with H : ext_hdr _ _ |- _ => inversion H; subst end;
      try (eapply HB; [apply Hc; lia|eassumption]); apply H1; lia.
  - match goal with H : time_wire _ _ _ |- _ => inversion H; subst end.
    + constructor; [apply Hc; lia|]. eapply HB; [apply Hc; lia|eassumption].
    + constructor; [apply Hc; lia|]. eapply HB; [apply Hc; lia|eassumption].
    + do 3 (constructor; [apply Hc; lia|]).
      repeat match goal with H : be_num _ _ _ |- _ => destruct H as (_ & H & _) end.
      apply Forall_app; split; assumption.
  - apply Forall_app; split; auto.
    match goal with H : arr_hdr _ _ |- _ => inversion H; subst end;
      try (eapply HB; [apply Hc; lia|eassumption]); apply H1; lia.
  - apply Forall_app; split; auto.
    match goal with H : map_hdr _ _ |- _ => inversion H; subst end;
      try (eapply HB; [apply Hc; lia|eassumption]); apply H1; lia.
  - constructor.
  - apply Forall_app; split; auto.
  - constructor.
  - apply Forall_app; split; [eapply HS; eauto|]. repeat (apply Forall_app; split; auto).
Qed.

Theorem wire_trunc m p q : wire m (p ++ q) -> ext_clean m -> q <> [] ->
  forall v t, mp_decode E p <> Ok (v, t).
Proof.
  intros Hw Hc Hq v t H.
  assert (Hd : mp_decode E (p ++ q) = Ok (tree_of E m, [])).
  { rewrite <- (app_nil_r (p ++ q)). apply wire_dec; auto. }
  assert (Hb : bytes_ok p) by (apply wire_bytes_ok in Hw; apply Forall_app in Hw; tauto).
  destruct (dec_local _ _ _ q Hb H) as [H'|(Hn & -> & H')]; rewrite Hd in H'; inversion H'.
  - symmetry in H2. apply app_eq_nil in H2. tauto.
  - subst v. eapply tree_no_nil; eauto.
Qed.
End Thms.
