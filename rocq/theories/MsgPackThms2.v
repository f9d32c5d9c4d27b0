(** More lemmas behind the MessagePack properties: panics, soundness, duplicate keys,
    extension data. *)
From Verif Require Import Base Values MsgPackModel MsgPackSpec Tactics MsgPackFuel MsgPackDecode
  MsgPackEncode MsgPackThms.

Section Thms.
Context (E : env).

(** ** Inverting the header readers *)
Lemma Forall_cons_inv {A} (P : A -> Prop) x l : Forall P (x :: l) -> P x /\ Forall P l.
Proof. inversion 1; auto. Qed.

Lemma u8_inv b n t : bytes_ok b -> parseUint8 b = Ok (n, t) -> exists p, b = p ++ t /\ be_num 1 p n.
Proof.
  do 1 (destruct b as [|? b]; [discriminate|]); intros Hb H; inversion H; subst.
  eexists [_]; split; [reflexivity|].
  repeat (apply Forall_cons_inv in Hb as [? Hb]).
  split; [reflexivity|split; [repeat (constructor; auto)|]].
  cbv [big_endian fold_left]. lia.
Qed.
Lemma u16_inv b n t : bytes_ok b -> parseUint16 b = Ok (n, t) -> exists p, b = p ++ t /\ be_num 2 p n.
Proof.
  do 2 (destruct b as [|? b]; [discriminate|]); intros Hb H; inversion H; subst.
  eexists [_; _]; split; [reflexivity|].
  repeat (apply Forall_cons_inv in Hb as [? Hb]).
  split; [reflexivity|split; [repeat (constructor; auto)|]].
  cbv [big_endian fold_left]. lia.
Qed.
Lemma u32_inv b n t : bytes_ok b -> parseUint32 b = Ok (n, t) -> exists p, b = p ++ t /\ be_num 4 p n.
Proof.
  do 4 (destruct b as [|? b]; [discriminate|]); intros Hb H; inversion H; subst.
  eexists [_; _; _; _]; split; [reflexivity|].
  repeat (apply Forall_cons_inv in Hb as [? Hb]).
  split; [reflexivity|split; [repeat (constructor; auto)|]].
  cbv [big_endian fold_left]. lia.
Qed.
Lemma u64_inv b n t : bytes_ok b -> parseUint64 b = Ok (n, t) -> exists p, b = p ++ t /\ be_num 8 p n.
Proof.
  do 8 (destruct b as [|? b]; [discriminate|]); intros Hb H; inversion H; subst.
  eexists [_; _; _; _; _; _; _; _]; split; [reflexivity|].
  repeat (apply Forall_cons_inv in Hb as [? Hb]).
  split; [reflexivity|split; [repeat (constructor; auto)|]].
  cbv [big_endian fold_left]. lia.
Qed.

Ltac cod := unfold IsStr, IsArray, IsMap, IsFixedStr, IsFixedNum, IsBin, IsExt, IsTime, between,
  CodeNil, CodeFalse, CodeTrue, CodeBin8, CodeBin16, CodeBin32, CodeExt8, CodeExt16, CodeExt32,
  CodeFloat, CodeDouble, CodeUint8, CodeUint16, CodeUint32, CodeUint64, CodeInt8, CodeInt16,
  CodeInt32, CodeInt64, CodeFixExt1, CodeFixExt2, CodeFixExt4, CodeFixExt8, CodeFixExt16,
  CodeStr8, CodeStr16, CodeStr32, CodeArray16, CodeArray32, CodeMap16, CodeMap32 in *.
Ltac isc c k := assert (c = k) by (cod; lia); subst c.

Lemma ext_inv c b n t : bytes_ok b -> parseExtLen c b = Ok (n, t) ->
  exists h, c :: b = h ++ t /\ ext_hdr n h.
Proof.
  unfold parseExtLen; intros Hb H.
  destruct (c =? CodeFixExt1) eqn:?; [isc c 0xd4; inversion H; subst; exists [0xd4]; split; auto; constructor; auto|].
  destruct (c =? CodeFixExt2) eqn:?; [isc c 0xd5; inversion H; subst; exists [0xd5]; split; auto; constructor; auto|].
  destruct (c =? CodeFixExt4) eqn:?; [isc c 0xd6; inversion H; subst; exists [0xd6]; split; auto; constructor; auto|].
  destruct (c =? CodeFixExt8) eqn:?; [isc c 0xd7; inversion H; subst; exists [0xd7]; split; auto; constructor; auto|].
  destruct (c =? CodeFixExt16) eqn:?; [isc c 0xd8; inversion H; subst; exists [0xd8]; split; auto; constructor; auto|].
  destruct (c =? CodeExt8) eqn:?.
  { isc c 0xc7. apply u8_inv in H as (p & -> & Hp); auto. exists (0xc7 :: p); split; auto; constructor; auto. }
  destruct (c =? CodeExt16) eqn:?.
  { isc c 0xc8. apply u16_inv in H as (p & -> & Hp); auto. exists (0xc8 :: p); split; auto; constructor; auto. }
  destruct (c =? CodeExt32) eqn:?; [|discriminate].
  isc c 0xc9. apply u32_inv in H as (p & -> & Hp); auto. exists (0xc9 :: p); split; auto; constructor; auto.
Qed.

Lemma map_inv c b n t : bytes_ok b -> parseMapLen c b = Ok (n, t) ->
  exists h, c :: b = h ++ t /\ map_hdr n h.
Proof.
  unfold parseMapLen; intros Hb H.
  destruct (between 128 143 c) eqn:?.
  { inversion H; subst. exists [c]; split; auto. replace c with (0x80 + c mod 16) at 2 by (cod; lia).
    constructor; lia. }
  destruct (c =? CodeMap16) eqn:?.
  { isc c 0xde. destruct (parseUint16 b) as [[m b']| | |] eqn:Hu; inversion H; subst.
    apply u16_inv in Hu as (p & -> & Hp); auto. exists (0xde :: p); split; auto; constructor; auto. }
  destruct (c =? CodeMap32) eqn:?; [|discriminate].
  isc c 0xdf. destruct (parseUint32 b) as [[m b']| | |] eqn:Hu; inversion H; subst.
  apply u32_inv in Hu as (p & -> & Hp); auto. exists (0xdf :: p); split; auto; constructor; auto.
Qed.

Lemma arr_inv c b n t : bytes_ok b -> parseArrLen c b = Ok (n, t) ->
  exists h, c :: b = h ++ t /\ arr_hdr n h.
Proof.
  unfold parseArrLen; intros Hb H.
  destruct (between 144 159 c) eqn:?.
  { inversion H; subst. exists [c]; split; auto. replace c with (0x90 + c mod 16) at 2 by (cod; lia).
    constructor; lia. }
  destruct (c =? CodeArray16) eqn:?.
  { isc c 0xdc. apply u16_inv in H as (p & -> & Hp); auto. exists (0xdc :: p); split; auto; constructor; auto. }
  destruct (c =? CodeArray32) eqn:?; [|discriminate].
  isc c 0xdd. apply u32_inv in H as (p & -> & Hp); auto. exists (0xdd :: p); split; auto; constructor; auto.
Qed.

Lemma len_inv c b n t : bytes_ok b -> parseLen c b = Ok (n, t) ->
  exists h, c :: b = h ++ t /\ ((IsStr c = true /\ str_hdr n h) \/ (IsBin c = true /\ bin_hdr n h)).
Proof.
  unfold parseLen; intros Hb H.
  destruct (IsFixedStr c) eqn:?.
  { inversion H; subst. exists [c]; split; auto. left; split; [cod; lia|].
    replace c with (0xa0 + c mod 32) at 2 by (cod; lia). constructor; lia. }
  destruct ((c =? CodeStr8) || (c =? CodeBin8)) eqn:?.
  { apply u8_inv in H as (p & -> & Hp); auto. exists (c :: p); split; auto.
    destruct (c =? CodeStr8) eqn:?; [isc c 0xd9; left|isc c 0xc4; right]; split; auto; constructor; auto. }
  destruct ((c =? CodeStr16) || (c =? CodeBin16)) eqn:?.
  { apply u16_inv in H as (p & -> & Hp); auto. exists (c :: p); split; auto.
    destruct (c =? CodeStr16) eqn:?; [isc c 0xda; left|isc c 0xc5; right]; split; auto; constructor; auto. }
  destruct ((c =? CodeStr32) || (c =? CodeBin32)) eqn:?; [|discriminate].
  apply u32_inv in H as (p & -> & Hp); auto. exists (c :: p); split; auto.
  destruct (c =? CodeStr32) eqn:?; [isc c 0xdb; left|isc c 0xc6; right]; split; auto; constructor; auto.
Qed.

Lemma split_at {A} (b : list A) n : 0 <= n <= zlen b ->
  b = firstn (Z.to_nat n) b ++ skipn (Z.to_nat n) b /\ zlen (firstn (Z.to_nat n) b) = n.
Proof.
  intros H. split; [symmetry; apply firstn_skipn|].
  unfold zlen in *. rewrite firstn_length. lia.
Qed.

Lemma str_inv c b s t : bytes_ok b -> parseStr c b = Ok (s, t) ->
  bytes_ok s /\
  exists h, c :: b = h ++ s ++ t /\
    ((IsStr c = true /\ str_hdr (zlen s) h) \/ (IsBin c = true /\ bin_hdr (zlen s) h)).
Proof.
  unfold parseStr; intros Hb H.
  destruct (parseLen c b) as [[n b']| | |] eqn:Hl; try discriminate.
  pose proof (parseLen_nonneg _ _ _ _ Hb Hl) as Hn0.
  assert (Hb' : bytes_ok b') by (eapply suffix_ok; [eapply parseLen_suf; eauto|auto]).
  apply len_inv in Hl as (h & Heq & Hh); auto.
  destruct (n <=? 0) eqn:Hn.
  { inversion H; subst. assert (n = 0) by lia; subst n. split; [constructor|]. exists h; split; auto. }
  destruct (n <=? zlen b') eqn:Hz; [|discriminate]. inversion H; subst; clear H.
  destruct (split_at b' n) as [Hs Hlen]; [lia|].
  split; [rewrite Hs in Hb'; apply Forall_app in Hb'; tauto|].
  exists h. rewrite <- Hs, Hlen. auto.
Qed.

(** ** Panics *)
Lemma be32_ok b : 4 <= zlen b -> exists n, be32 b = Ok n.
Proof.
  intros H. unfold be32, parseUint32.
  do 4 (destruct b as [|? b]; [unfold zlen in H; simpl in H; lia|]). eauto.
Qed.
Lemma be64_ok b : 8 <= zlen b -> exists n, be64 b = Ok n.
Proof.
  intros H. unfold be64, parseUint64.
  do 8 (destruct b as [|? b]; [unfold zlen in H; simpl in H; lia|]). eauto.
Qed.

Lemma parseExt_panic c b : bytes_ok b -> parseExt E c b = Panic -> fatal_tail (c :: b).
Proof.
  unfold parseExt; intros Hb H.
  destruct (parseExtLen c b) as [[n b']| | |] eqn:Hl; cbn [bind] in H; try discriminate.
  2:{ exfalso; revert Hl; unfold parseExtLen, parseUint8, parseUint16, parseUint32.
      repeat dgoal; discriminate. }
  pose proof (parseExtLen_nonneg _ _ _ _ Hb Hl) as Hn0.
  pose proof Hl as Hl0. apply ext_inv in Hl as (h & Heq & Hh); auto.
  destruct (zlen b' <? n) eqn:Hz; [discriminate|].
  destruct (zlen b' <? n + 1) eqn:Hz1.
  { rewrite Heq. apply ft_ext with n; auto. lia. }
  destruct b' as [|ty b1]; [rewrite zlen_nil in Hz1; lia|]. rewrite zlen_cons in Hz, Hz1.
  destruct (IsTime c ty) eqn:Ht; [|discriminate].
  destruct (c =? CodeFixExt4) eqn:Hc4.
  { isc c 0xd6. inversion Hl0; subst. destruct (be32_ok b1) as [s Hs]; [lia|]. rewrite Hs in H. discriminate. }
  destruct (c =? CodeFixExt8) eqn:Hc8.
  { isc c 0xd7. inversion Hl0; subst. destruct (be64_ok b1) as [s Hs]; [lia|]. rewrite Hs in H. discriminate. }
  isc c 0xc7. isc ty 255. unfold parseExtLen in Hl0; simpl in Hl0. unfold parseUint8 in Hl0.
  destruct b as [|n' b]; [discriminate|]. inversion Hl0; subst. apply ft_time; [lia|].
  destruct (12 <=? zlen b1) eqn:H12; [exfalso|lia].
  destruct (be32_ok b1) as [s Hs]; [lia|]. rewrite Hs in H. cbn [bind] in H.
  replace (zlen b1 <? 4) with false in H by lia.
  destruct (be64_ok (skipn 4 b1)) as [u Hu].
  { unfold zlen in *. rewrite skipn_length. lia. }
  rewrite Hu in H. discriminate.
Qed.

Lemma parseStr_nopanic c b : parseStr c b <> Panic.
Proof. unfold parseStr, parseLen, parseUint8, parseUint16, parseUint32. repeat dgoal; discriminate. Qed.

Lemma parseScalar_panic c b : bytes_ok b -> parseScalar E c b = Panic -> fatal_tail (c :: b).
Proof.
  unfold parseScalar; intros Hb H.
  repeat (match type of H with
   | (if ?x then _ else _) = _ => destruct x eqn:?
   end); try discriminate; try (apply parseExt_panic; assumption); exfalso; revert H;
   unfold parseStr, parseLen, parseUint8, parseUint16, parseUint32, parseUint64, bind;
   repeat dgoal; discriminate.
Qed.

Definition fatal_in (b : bytes) : Prop := exists p s, b = p ++ s /\ fatal_tail s.
Lemma fatal_suffix s b : suffix s b -> fatal_in s -> fatal_in b.
Proof. intros [p ->] (q & s' & -> & H). exists (p ++ q), s'. rewrite app_assoc; auto. Qed.
Lemma fatal_here b : fatal_tail b -> fatal_in b.
Proof. intros H; exists [], b; auto. Qed.

Lemma dec_panic_all : forall k,
  (forall b, (length b < k)%nat -> bytes_ok b -> dec E b = Panic -> fatal_in b) /\
  (forall n b acc, (length b < k)%nat -> bytes_ok b -> decarr E n b acc = Panic -> fatal_in b) /\
  (forall n b acc, (length b < k)%nat -> bytes_ok b -> decmap E n b acc = Panic -> fatal_in b).
Proof.
  induction k as [|k (IV & IA & IM)]; [repeat split; intros; lia|].
  assert (IV' : forall b, (length b < S k)%nat -> bytes_ok b -> dec E b = Panic -> fatal_in b).
  { intros [|c b] Hk Hb H; rewrite dec_eq in H; [discriminate|]. cbn [length] in Hk.
    apply Forall_cons_inv in Hb as [Hc Hb].
    destruct (IsStr c); [apply fatal_here, parseScalar_panic; auto|].
    destruct (IsArray c).
    { destruct (parseArrLen c b) as [[n b']| | |] eqn:Hl; cbn [bind] in H; try discriminate.
      2:{ exfalso; revert Hl; unfold parseArrLen, parseUint16, parseUint32; repeat dgoal; discriminate. }
      destruct (n =? 0); [discriminate|].
      pose proof (parseArrLen_len _ _ _ _ Hl). apply parseArrLen_suf in Hl.
      apply IA in H; [|lia|eapply suffix_ok; eauto].
      eapply fatal_suffix; [|exact H]. apply suffix_cons; auto. }
    destruct (IsMap c); [|apply fatal_here, parseScalar_panic; auto].
    destruct (parseMapLen c b) as [[n b']| | |] eqn:Hl; cbn [bind] in H; try discriminate.
    2:{ exfalso; revert Hl; unfold parseMapLen, parseUint16, parseUint32; repeat dgoal; discriminate. }
    destruct (n =? 0) eqn:Hn0; [discriminate|].
    pose proof (parseMapLen_len _ _ _ _ Hl). pose proof (parseMapLen_suf _ _ _ _ Hl) as Hsf.
    destruct b' as [|c' b'].
    { apply map_inv in Hl as (h & Heq & Hh); auto. rewrite app_nil_r in Heq. rewrite Heq.
      apply fatal_here. apply ft_map with n; auto.
      inversion Hh as [|p B|p B]; subst; try lia.
      - apply be_num2 in B as [B _]; lia.
      - apply be_num4 in B as [B _]; lia. }
    destruct (IsStr c'); [|discriminate].
    apply IM in H; [|lia|eapply suffix_ok; eauto].
    eapply fatal_suffix; [|exact H]. apply suffix_cons; auto. }
  repeat split; auto.
  - intros n b acc Hk Hb H. rewrite decarr_eq in H.
    destruct (n <=? 0); [discriminate|].
    destruct (dec E b) as [[x b']| | |] eqn:Hv; cbn [bind] in H; try discriminate; [|auto].
    pose proof (dec_len _ _ _ _ Hv). apply dec_suf in Hv.
    apply IA in H; [|lia|eapply suffix_ok; eauto]. eapply fatal_suffix; eauto.
  - intros n b acc Hk Hb H. rewrite decmap_eq in H.
    destruct (n <=? 0); [discriminate|]. destruct b as [|c b]; [discriminate|].
    cbn [length] in Hk. apply Forall_cons_inv in Hb as [Hc Hb].
    destruct (parseStr c b) as [[s b']| | |] eqn:Hs; cbn [bind] in H; try discriminate.
    2:{ exfalso; eapply parseStr_nopanic; eauto. }
    pose proof (parseStr_len _ _ _ _ Hs). apply parseStr_suf in Hs.
    assert (Hb' : bytes_ok b') by (eapply suffix_ok; eauto).
    destruct (dec E b') as [[x b'']| | |] eqn:Hv; cbn [bind] in H; try discriminate.
    2:{ eapply fatal_suffix; [apply suffix_cons; eauto|]. apply IV'; auto; lia. }
    pose proof (dec_len _ _ _ _ Hv). apply dec_suf in Hv.
    apply IM in H; [|lia|eapply suffix_ok; eauto].
    eapply fatal_suffix; [|exact H]. apply suffix_cons. eapply suffix_trans; eauto.
Qed.

Theorem dec_panic b : bytes_ok b -> mp_decode E b = Panic -> exists p s, b = p ++ s /\ fatal_tail s.
Proof. intros Hb H. apply (proj1 (dec_panic_all (S (length b)))); auto. Qed.

(** Conversely, each of these byte strings does make the decoder panic. *)
Theorem fatal_panics s : bytes_ok s -> fatal_tail s -> mp_decode E s = Panic.
Proof.
  intros Hb H. change (dec E s = Panic). inversion H; subst.
  - apply map_hdr_parse in H0 as (c & h' & -> & Hm & Ha & Hs & Hp).
    rewrite dec_eq, Hs, Ha, Hm. rewrite <- (app_nil_r h'), Hp. cbn [bind].
    replace (n =? 0) with false by lia. reflexivity.
  - pose proof H0 as Hh. apply ext_hdr_parse in H0 as (c & h' & -> & Hc & Hn & Hp).
    destruct (ext_other E c Hc) as (H1 & H2 & H3 & H4).
    cbn [app]. rewrite dec_scalar by auto. rewrite H4. unfold parseExt. rewrite Hp. cbn [bind].
    replace (zlen r <? zlen r) with false by lia. replace (zlen r <? zlen r + 1) with true by lia.
    reflexivity.
  - rewrite dec_scalar by (right; split; reflexivity).
    rewrite (proj2 (proj2 (proj2 (ext_other E 0xc7 eq_refl)))).
    unfold parseExt. change (parseExtLen 199 (n :: 255 :: r)) with (@Ok (Z * bytes) (n, 255 :: r)).
    cbn [bind]. rewrite zlen_cons.
    replace (1 + zlen r <? n) with false by lia.
    replace (1 + zlen r <? n + 1) with false by lia.
    change (IsTime 199 255) with true. change (199 =? CodeFixExt4) with false.
    change (199 =? CodeFixExt8) with false. cbv iota.
    destruct (be32 r) as [ns| | |] eqn:H32; cbn [bind]; auto.
    2,3: exfalso; revert H32; unfold be32, parseUint32; repeat dgoal; discriminate.
    destruct (zlen r <? 4) eqn:Hz4; auto.
    destruct (be64 (skipn 4 r)) as [u| | |] eqn:H64; cbn [bind]; auto.
    + exfalso. unfold be64 in H64.
      destruct (parseUint64 (skipn 4 r)) as [[w t]| | |] eqn:Hu; try discriminate.
      apply parseUint64_len in Hu. rewrite skipn_length in Hu. unfold zlen in *. lia.
    + exfalso; revert H64; unfold be64, parseUint64; repeat dgoal; discriminate.
    + exfalso; revert H64; unfold be64, parseUint64; repeat dgoal; discriminate.
Qed.

(** ** Soundness: what is accepted is a message, up to the listed leniencies *)
Lemma parseScalar_sound c b v t : byte_ok c -> bytes_ok b -> IsArray c = false -> IsMap c = false ->
  parseScalar E c b = Ok (v, t) ->
  exists l d, c :: b = d ++ t /\ lwire l d /\ v = ltree E l.
Proof.
  intros Hc Hb HA HM H. unfold parseScalar in H.
  assert (HI : forall n d t', int_wire n d -> c :: b = d ++ t' -> v = VInt 0 (wrap64 n) -> t = t' ->
     exists l d, c :: b = d ++ t /\ lwire l d /\ v = ltree E l).
  { intros n d t' Hi Heq -> ->. exists (LScalar (MInt n)), d. repeat split; auto.
    constructor; [exact I|constructor; auto]. }
  destruct (IsStr c) eqn:Hstr.
  { apply bind_ok in H as [[s t'] [Hs H]]. inversion H; subst.
    apply str_inv in Hs as (Hok & h & Heq & Hh); auto.
    exists (LScalar (MStr s)), (h ++ s). rewrite <- app_assoc. repeat split; auto.
    constructor; [exact I|]. constructor; auto. destruct Hh as [[_ ?]|[Hbin _]]; auto.
    exfalso; cod; lia. }
  destruct (IsFixedNum c) eqn:Hfix.
  { inversion H; subst. destruct (c <=? 127) eqn:?.
    - apply (HI c [c] t); auto; [constructor; unfold byte_ok in *; lia|]. unfold s8, wrap64. f_equal; zif.
    - apply (HI (c - 256) [c] t); auto.
      + replace c with (256 + (c - 256)) at 2 by lia. apply iw_neg. cod. unfold byte_ok in *. lia.
      + unfold s8, wrap64. unfold byte_ok in Hc. f_equal; zif. }
  destruct (c =? CodeUint8) eqn:?.
  { isc c 0xcc. apply bind_ok in H as [[n t'] [Hs H]]. inversion H; subst.
    apply u8_inv in Hs as (p & -> & Hp); auto. apply (HI n (0xcc :: p) t); auto; [constructor; auto|].
    apply be_num1 in Hp as [_ Hp]. unfold wrap64. f_equal; zif. }
  destruct (c =? CodeInt8) eqn:?.
  { isc c 0xd0. apply bind_ok in H as [[n t'] [Hs H]]. inversion H; subst.
    apply u8_inv in Hs as (p & -> & Hp); auto. apply (HI (signed 1 n) (0xd0 :: p) t); auto; [econstructor; eauto|].
    apply be_num1 in Hp as [_ Hp]. unfold wrap64, signed, s8. simpl Z.of_nat. f_equal; zif. }
  destruct (c =? CodeUint16) eqn:?.
  { isc c 0xcd. apply bind_ok in H as [[n t'] [Hs H]]. inversion H; subst.
    apply u16_inv in Hs as (p & -> & Hp); auto. apply (HI n (0xcd :: p) t); auto; [constructor; auto|].
    apply be_num2 in Hp as [Hp _]. unfold wrap64. f_equal; zif. }
  destruct (c =? CodeInt16) eqn:?.
  { isc c 0xd1. apply bind_ok in H as [[n t'] [Hs H]]. inversion H; subst.
    apply u16_inv in Hs as (p & -> & Hp); auto. apply (HI (signed 2 n) (0xd1 :: p) t); auto; [econstructor; eauto|].
    apply be_num2 in Hp as [Hp _]. unfold wrap64, signed, s16. simpl Z.of_nat. f_equal; zif. }
  destruct (c =? CodeUint32) eqn:?.
  { isc c 0xce. apply bind_ok in H as [[n t'] [Hs H]]. inversion H; subst.
    apply u32_inv in Hs as (p & -> & Hp); auto. apply (HI n (0xce :: p) t); auto; [constructor; auto|].
    apply be_num4 in Hp as [Hp _]. unfold wrap64. f_equal; zif. }
  destruct (c =? CodeInt32) eqn:?.
  { isc c 0xd2. apply bind_ok in H as [[n t'] [Hs H]]. inversion H; subst.
    apply u32_inv in Hs as (p & -> & Hp); auto. apply (HI (signed 4 n) (0xd2 :: p) t); auto; [econstructor; eauto|].
    apply be_num4 in Hp as [Hp _]. unfold wrap64, signed, s32. simpl Z.of_nat. f_equal; zif. }
  destruct ((c =? CodeInt64) || (c =? CodeUint64)) eqn:?.
  { apply bind_ok in H as [[n t'] [Hs H]]. inversion H; subst.
    apply u64_inv in Hs as (p & -> & Hp); auto.
    destruct (c =? CodeInt64) eqn:?; [isc c 0xd3|isc c 0xcf].
    - apply (HI (signed 8 n) (0xd3 :: p) t); auto; [econstructor; eauto|].
      apply be_num8 in Hp as [Hp _]. unfold wrap64, signed, s64. simpl Z.of_nat. f_equal; zif.
    - apply (HI n (0xcf :: p) t); auto. constructor; auto. }
  destruct (c =? CodeFloat) eqn:?.
  { isc c 0xca. apply bind_ok in H as [[n t'] [Hs H]]. inversion H; subst.
    apply u32_inv in Hs as (p & -> & Hp); auto.
    exists (LScalar (MF32 n)), (0xca :: p). repeat split; auto. repeat constructor; apply Hp. }
  destruct (c =? CodeDouble) eqn:?.
  { isc c 0xcb. apply bind_ok in H as [[n t'] [Hs H]]. inversion H; subst.
    apply u64_inv in Hs as (p & -> & Hp); auto.
    exists (LScalar (MF64 n)), (0xcb :: p). repeat split; auto. repeat constructor; apply Hp. }
  destruct (c =? CodeTrue) eqn:?.
  { isc c 0xc3. inversion H; subst. exists (LScalar (MBool true)), [0xc3]. repeat split; auto. repeat constructor. }
  destruct (c =? CodeFalse) eqn:?.
  { isc c 0xc2. inversion H; subst. exists (LScalar (MBool false)), [0xc2]. repeat split; auto. repeat constructor. }
  destruct (c =? CodeNil) eqn:?.
  { isc c 0xc0. inversion H; subst. exists (LScalar MNil), [0xc0]. repeat split; auto. repeat constructor. }
  destruct (IsBin c) eqn:Hbin.
  { apply bind_ok in H as [[n b'] [Hl H]]. pose proof (parseLen_nonneg _ _ _ _ Hb Hl) as Hn0.
    assert (Hb' : bytes_ok b') by (eapply suffix_ok; [eapply parseLen_suf; eauto|auto]).
    apply len_inv in Hl as (h & Heq & Hh); auto.
    destruct (n <=? zlen b') eqn:Hz; [|discriminate]. inversion H; subst; clear H.
    destruct (split_at b' n) as [Hs Hlen]; [lia|].
    exists (LScalar (MBin (firstn (Z.to_nat n) b'))), (h ++ firstn (Z.to_nat n) b').
    rewrite <- app_assoc, <- Hs. repeat split; auto. constructor; [exact I|].
    constructor; [rewrite Hs in Hb'; apply Forall_app in Hb'; tauto|]. rewrite Hlen.
    destruct Hh as [[Hs' _]|[_ Hh]]; auto. congruence. }
  destruct (IsExt c) eqn:Hext.
  { unfold parseExt in H. apply bind_ok in H as [[n b'] [Hl H]].
    pose proof (parseExtLen_nonneg _ _ _ _ Hb Hl) as Hn0. pose proof Hl as Hl0.
    assert (Hb' : bytes_ok b') by (eapply suffix_ok; [eapply parseExtLen_suf; eauto|auto]).
    apply ext_inv in Hl as (h & Heq & Hh); auto.
    destruct (zlen b' <? n) eqn:Hz; [discriminate|].
    destruct (zlen b' <? n + 1) eqn:Hz1; [discriminate|].
    destruct b' as [|ty b1]; [discriminate|]. rewrite zlen_cons in Hz, Hz1.
    assert (Hsp : firstn (Z.to_nat (n + 1)) (ty :: b1) = ty :: firstn (Z.to_nat n) b1 /\
       skipn (Z.to_nat (n + 1)) (ty :: b1) = skipn (Z.to_nat n) b1).
    { replace (Z.to_nat (n + 1)) with (S (Z.to_nat n)) by lia. auto. }
    destruct Hsp as [Hsp1 Hsp2]. rewrite Hsp1, Hsp2 in H.
    destruct (split_at b1 n) as [Hs Hlen]; [lia|].
    destruct (IsTime c ty) eqn:Ht.
    - destruct (c =? CodeFixExt4) eqn:Hc4.
      { isc c 0xd6. inversion Hl0; subst n b. clear Hl0. isc ty 255.
        apply bind_ok in H as [sec [Hsec H]]. unfold be32 in Hsec.
        destruct (parseUint32 b1) as [[sec' t']| | |] eqn:Hu; try discriminate. inversion Hsec; subst sec'.
        apply Forall_cons_inv in Hb as [_ Hb].
        apply u32_inv in Hu as (p & Hpe & Hp); auto.
        assert (Hpl : p = firstn (Z.to_nat 4) b1).
        { rewrite Hpe. replace (Z.to_nat 4) with (length p) by apply Hp.
          rewrite firstn_app, firstn_all, Nat.sub_diag. simpl. rewrite app_nil_r; auto. }
        exists (LScalar (MTime sec 0)), (0xd6 :: 255 :: p). inversion H; subst v t.
        repeat split.
        + cbn [app]. do 2 f_equal. rewrite Hpl. auto.
        + repeat constructor; apply Hp.
        + cbn [ltree tree_of]. unfold time_unix. change (0 / 1000000000) with 0.
          rewrite Z.add_0_r. reflexivity. }
      destruct (c =? CodeFixExt8) eqn:Hc8.
      { isc c 0xd7. inversion Hl0; subst n b. clear Hl0. isc ty 255.
        apply bind_ok in H as [w [Hw H]].
        unfold be64 in Hw. destruct (parseUint64 b1) as [[w' t']| | |] eqn:Hu; try discriminate.
        inversion Hw; subst w'. clear Hw. apply Forall_cons_inv in Hb as [_ Hb].
        apply u64_inv in Hu as (p & Hpe & Hp); auto.
        assert (Hpl : firstn (Z.to_nat 8) b1 = p).
        { rewrite Hpe. replace (Z.to_nat 8) with (length p) by apply Hp.
          rewrite firstn_app, firstn_all, Nat.sub_diag. simpl. rewrite app_nil_r; auto. }
        rewrite Hpl in Hs, Hlen. inversion H; subst v t. pose proof (be_num8 _ _ Hp) as [Hw _].
        destruct (w / 2 ^ 34 <=? 999999999) eqn:Hns.
        + exists (LScalar (MTime (w mod 2 ^ 34) (w / 2 ^ 34))), (0xd7 :: 255 :: p). repeat split; auto.
          * cbn [app]. do 2 f_equal. auto.
          * constructor; [exact I|]. constructor. apply tw_64; [clear - Hns Hw; lia|clear - Hns Hw; lia|].
            replace (w / 2 ^ 34 * 2 ^ 34 + w mod 2 ^ 34) with w by (clear; lia). auto.
          * cbn [ltree tree_of]. unfold time_unix.
            assert (Hr : 0 <= w / 2 ^ 34 < 1000000000) by (clear - Hns Hw; lia).
            rewrite (Z.div_small (w / 2 ^ 34)) by exact Hr.
            rewrite (Z.mod_small (w / 2 ^ 34)) by exact Hr. rewrite Z.add_0_r. auto.
        + exists (LOdd (x_delphi E (time_unix (w mod 2 ^ 34) (w / 2 ^ 34)))), (0xd7 :: 255 :: p).
          repeat split; auto.
          * cbn [app]. do 2 f_equal. auto.
          * constructor; auto. intros sec nsec Hc'. inversion Hc' as [|? B1 B2 B3|]; subst.
            assert (w = nsec * 2 ^ 34 + sec) by (destruct B3 as (_ & _ & <-); destruct Hp as (_ & _ & <-); auto).
            clear - B1 B2 H0 Hns. lia. }
      isc c 0xc7. isc ty 255. unfold parseExtLen in Hl0; simpl in Hl0. unfold parseUint8 in Hl0.
      destruct b as [|n' b]; [discriminate|]. inversion Hl0; subst n' b.
      apply bind_ok in H as [ns [Hns H]]. destruct (zlen b1 <? 4); [discriminate|].
      apply bind_ok in H as [u [Hu H]].
      inversion H; subst v t. clear H.
      assert (HO : (forall sec nsec, ~ time_wire sec nsec (0xc7 :: n :: 0xff :: firstn (Z.to_nat n) b1)) ->
        exists l d, 0xc7 :: n :: 255 :: b1 = d ++ skipn (Z.to_nat n) b1 /\ lwire l d /\
          VDateTime (x_delphi E (time_unix (s64 u) ns)) = ltree E l).
      { intros Hno. exists (LOdd (x_delphi E (time_unix (s64 u) ns))), (0xc7 :: n :: 255 :: firstn (Z.to_nat n) b1).
        repeat split; auto; [cbn [app]; do 3 f_equal; auto|constructor; auto]. }
      destruct (n =? 12) eqn:Hn12.
      2:{ apply HO. intros sec nsec Hc'. inversion Hc'; subst. lia. }
      assert (n = 12) by lia; subst n.
      unfold be32 in Hns. destruct (parseUint32 b1) as [[ns' t']| | |] eqn:Hu32; try discriminate.
      inversion Hns; subst ns'. clear Hns. apply Forall_cons_inv in Hb as [_ Hb]. apply Forall_cons_inv in Hb as [_ Hb].
      apply u32_inv in Hu32 as (p & Hpe & Hp); auto.
      assert (Hpl : skipn 4 b1 = t').
      { rewrite Hpe. replace 4%nat with (length p) by apply Hp.
        rewrite skipn_app, skipn_all, Nat.sub_diag. auto. }
      rewrite Hpl in Hu. unfold be64 in Hu. destruct (parseUint64 t') as [[u' t'']| | |] eqn:Hu64; try discriminate.
      inversion Hu; subst u'. clear Hu.
      apply u64_inv in Hu64 as (q & Hqe & Hq); [|rewrite Hpe in Hb; apply Forall_app in Hb; tauto].
      assert (Hpq : firstn (Z.to_nat 12) b1 = p ++ q).
      { rewrite Hpe, Hqe, app_assoc. replace (Z.to_nat 12) with (length (p ++ q))
          by (rewrite app_length; destruct Hp as [-> _]; destruct Hq as [-> _]; reflexivity).
        rewrite firstn_app, firstn_all, Nat.sub_diag. simpl. rewrite app_nil_r; auto. }
      rewrite Hpq in Hs, Hlen, HO. pose proof (be_num4 _ _ Hp) as [Hpn _]. pose proof (be_num8 _ _ Hq) as [Hqn _].
      destruct (ns <=? 999999999) eqn:Hns.
      + exists (LScalar (MTime (signed 8 u) ns)), (0xc7 :: 12 :: 255 :: p ++ q). repeat split.
        * cbn [app]. do 3 f_equal. auto.
        * constructor; [exact I|]. constructor. eapply tw_96; eauto. lia.
        * cbn [ltree tree_of]. unfold time_unix. rewrite (Z.div_small ns) by lia.
          rewrite (Z.mod_small ns) by lia. rewrite Z.add_0_r. auto.
      + apply HO. intros sec nsec Hc'. inversion Hc' as [| |p' q' u' B1 B2 B3 B4 B5]; subst.
        assert (p' = p /\ q' = q) as [-> ->].
        { destruct Hp as [Hp1 _]; destruct B2 as [B2 _].
          assert (length p' = length p) by congruence.
          split; [apply (f_equal (firstn (length p))) in B5; rewrite !firstn_app, !firstn_all, Nat.sub_diag in B5;
                  rewrite <- H in B5 at 1 2; rewrite firstn_all, Nat.sub_diag in B5; simpl in B5; rewrite !app_nil_r in B5; auto|].
          apply (f_equal (skipn (length p))) in B5. rewrite !skipn_app, skipn_all, Nat.sub_diag in B5.
          rewrite <- H in B5 at 1 2. rewrite skipn_all, Nat.sub_diag in B5. auto. }
        assert (ns = nsec) by (destruct B2 as (_ & _ & <-); destruct Hp as (_ & _ & <-); auto).
        lia.
    - inversion H; subst v t.
      exists (LScalar (MExt ty (firstn (Z.to_nat n) b1))), (h ++ ty :: firstn (Z.to_nat n) b1).
      repeat split.
      + rewrite <- app_assoc. cbn [app]. rewrite <- Hs. auto.
      + apply Forall_cons_inv in Hb' as [Hty Hb1].
        constructor; [exact I|]. constructor; auto; [|rewrite Hlen; auto].
        rewrite Hs in Hb1; apply Forall_app in Hb1; tauto. }
  inversion H; subst. exists LNever, (c :: b).
  rewrite app_nil_r. repeat split; auto. isc c 0xc1. constructor.
Qed.

Lemma key_inv c b s t : bytes_ok b -> parseStr c b = Ok (s, t) ->
  bytes_ok s /\ exists bk h, c :: b = h ++ s ++ t /\ key_hdr bk (zlen s) h /\ (IsStr c = true -> bk = false).
Proof.
  intros Hb H. apply str_inv in H as (Hok & h & Heq & Hh); auto. split; auto.
  destruct Hh as [[Hc Hh]|[Hc Hh]].
  - exists false, h. repeat split; auto. constructor; auto.
  - exists true, h. repeat split; auto; [constructor; auto|]. intros; exfalso; cod; lia.
Qed.

Definition lkv (kv : bool * bytes * lval) := (snd (fst kv), ltree E (snd kv)).

Lemma ltree_map kvs : ltree E (LMap kvs) =
  match kvs with [] => VObject false [] | _ => VObject true (upserts (key_match E) (map lkv kvs) []) end.
Proof. destruct kvs; reflexivity. Qed.

Lemma set_key_acc u kvs k x : u = true \/ kvs = [] ->
  set_key_value E (VObject u kvs) k x = VObject true (upsert (key_match E) kvs k x).
Proof.
  intros [->| ->]; unfold set_key_value.
  - rewrite obj_set_true; reflexivity.
  - destruct u; [rewrite obj_set_true|rewrite obj_set_empty]; reflexivity.
Qed.

Lemma sound_all : forall k,
  (forall b v t, (length b < k)%nat -> bytes_ok b -> dec E b = Ok (v, t) ->
     exists l d, b = d ++ t /\ lwire l d /\ v = ltree E l) /\
  (forall n b acc v t, (length b < k)%nat -> bytes_ok b -> 0 <= n -> decarr E n b acc = Ok (v, t) ->
     exists ls d, b = d ++ t /\ zlen ls = n /\ lwires ls d /\ v = VArray (acc ++ map (ltree E) ls)) /\
  (forall n b u kvs v t, (length b < k)%nat -> bytes_ok b -> 0 <= n -> u = true \/ kvs = [] ->
     decmap E n b (VObject u kvs) = Ok (v, t) ->
     exists ls d, b = d ++ t /\ zlen ls = n /\ lkwires ls d /\
       v = VObject (match ls with [] => u | _ => true end) (upserts (key_match E) (map lkv ls) kvs) /\
       match b with c :: _ => IsStr c = true -> match ls with [] => True | ((bk, _), _) :: _ => bk = false end
       | [] => True end).
Proof.
  induction k as [|k (IV & IA & IM)]; [repeat split; intros; lia|].
  assert (IV' : forall b v t, (length b < S k)%nat -> bytes_ok b -> dec E b = Ok (v, t) ->
     exists l d, b = d ++ t /\ lwire l d /\ v = ltree E l).
  { intros [|c b] v t Hk Hb H; rewrite dec_eq in H; [discriminate|]. cbn [length] in Hk.
    apply Forall_cons_inv in Hb as [Hc Hb].
    destruct (IsStr c) eqn:HS; [apply parseScalar_sound; auto; cod; lia|].
    destruct (IsArray c) eqn:HA.
    { apply bind_ok in H as [[n b'] [Hl H]]. pose proof (parseArrLen_len _ _ _ _ Hl).
      pose proof (parseArrLen_suf _ _ _ _ Hl) as Hsf. apply arr_inv in Hl as (h & Heq & Hh); auto.
      destruct (n =? 0) eqn:Hn.
      - inversion H; subst. assert (n = 0) by lia; subst n.
        exists (LArr []), h. repeat split; auto. rewrite <- (app_nil_r h). constructor; [auto|constructor].
      - assert (0 <= n).
        { inversion Hh as [|p B|p B]; subst; try lia; [apply be_num2 in B as [B _]|apply be_num4 in B as [B _]]; lia. }
        apply IA in H as (ls & d & -> & Hz & Hls & ->); [|lia|eapply suffix_ok; eauto|auto].
        exists (LArr ls), (h ++ d). rewrite <- app_assoc. repeat split; auto. constructor; auto. congruence. }
    destruct (IsMap c) eqn:HM; [|apply parseScalar_sound; auto].
    apply bind_ok in H as [[n b'] [Hl H]]. pose proof (parseMapLen_len _ _ _ _ Hl).
    pose proof (parseMapLen_suf _ _ _ _ Hl) as Hsf. apply map_inv in Hl as (h & Heq & Hh); auto.
    destruct (n =? 0) eqn:Hn.
    - inversion H; subst. assert (n = 0) by lia; subst n.
      exists (LMap []), h. repeat split; auto. rewrite <- (app_nil_r h). constructor; [auto|constructor|auto].
    - assert (0 <= n).
      { inversion Hh as [|p B|p B]; subst; try lia; [apply be_num2 in B as [B _]|apply be_num4 in B as [B _]]; lia. }
      destruct b' as [|c' b']; [discriminate|]. destruct (IsStr c') eqn:HS'; [|discriminate].
      apply IM in H as (ls & d & Hd & Hz & Hls & -> & Hfst); [|lia|eapply suffix_ok; eauto|auto|auto].
      exists (LMap ls), (h ++ d). rewrite <- app_assoc, <- Hd. repeat split; auto.
      + constructor; [congruence|auto|]. apply Hfst; auto.
      + rewrite ltree_map. destruct ls; [rewrite zlen_nil in Hz; lia|]. reflexivity. }
  repeat split; auto.
  - intros n b acc v t Hk Hb Hn0 H. rewrite decarr_eq in H.
    destruct (n <=? 0) eqn:Hn.
    { inversion H; subst. exists [], []. repeat split; auto; [unfold zlen; simpl; lia|constructor|].
      cbn [map]. rewrite app_nil_r; auto. }
    apply bind_ok in H as [[x b'] [Hv H]]. pose proof (dec_len _ _ _ _ Hv). pose proof (dec_suf _ _ _ _ Hv) as Hsf.
    apply IV' in Hv as (l & d & -> & Hw & ->); auto.
    apply IA in H as (ls & d' & -> & Hz & Hls & ->); [|lia|eapply suffix_ok; eauto|lia].
    exists (l :: ls), (d ++ d'). rewrite <- app_assoc, zlen_cons. repeat split; auto; [lia|constructor; auto|].
    cbn [map]. rewrite <- app_assoc. reflexivity.
  - intros n b u kvs v t Hk Hb Hn0 Hu H. rewrite decmap_eq in H.
    destruct (n <=? 0) eqn:Hn.
    { inversion H; subst. exists [], []. repeat split; auto; [unfold zlen; simpl; lia|constructor|].
      destruct t; auto. }
    destruct b as [|c b]; [discriminate|]. cbn [length] in Hk. apply Forall_cons_inv in Hb as [Hc Hb].
    apply bind_ok in H as [[s b'] [Hs H]]. pose proof (parseStr_len _ _ _ _ Hs).
    pose proof (parseStr_suf _ _ _ _ Hs) as Hsf.
    apply key_inv in Hs as (Hok & bk & h & Heq & Hh & Hbk); auto.
    apply bind_ok in H as [[x b''] [Hv H]]. pose proof (dec_len _ _ _ _ Hv). pose proof (dec_suf _ _ _ _ Hv) as Hsf'.
    apply IV' in Hv as (l & d & -> & Hw & ->); [|lia|eapply suffix_ok; eauto].
    rewrite set_key_acc in H by auto.
    apply IM in H as (ls & d' & Hd' & Hz & Hls & -> & _);
      [|lia|eapply suffix_ok; [eapply suffix_trans; eauto|auto]|lia|auto].
    exists (((bk, s), l) :: ls), (h ++ s ++ d ++ d').
    rewrite Heq, Hd', <- !app_assoc, zlen_cons.
    split; [reflexivity|]. split; [lia|]. split; [constructor; auto|].
    split; [destruct ls; reflexivity|].
    exact Hbk.
Qed.

Theorem dec_sound b v t : bytes_ok b -> mp_decode E b = Ok (v, t) ->
  exists l d, b = d ++ t /\ lwire l d /\ v = ltree E l.
Proof. intros Hb H. apply (proj1 (sound_all (S (length b)))); auto. Qed.

(** A reading without leniencies is a conforming message with the same tree. *)
Lemma strict_wire :
  (forall l d, lwire l d -> forall m, strict l = Some m -> wire m d /\ tree_of E m = ltree E l) /\
  (forall ls d, lwires ls d -> forall ms, opt_all (map strict ls) = Some ms ->
     wires ms d /\ zlen ms = zlen ls /\ map (tree_of E) ms = map (ltree E) ls) /\
  (forall ls d, lkwires ls d -> forall ms,
     opt_all (map (fun kv : bool * bytes * lval => if fst (fst kv) then None
      else option_map (fun m => (snd (fst kv), m)) (strict (snd kv))) ls) = Some ms ->
     kwires ms d /\ zlen ms = zlen ls /\ map (kv_tree E) ms = map lkv ls).
Proof.
  apply lwire_mutind.
  - intros m b Hs Hw m' H. inversion H; subst; auto.
  - intros; discriminate.
  - intros; discriminate.
  - intros; discriminate.
  - intros l h b Hh Hl IH m H. cbn [strict] in H.
    destruct (opt_all (map strict l)) as [ms|] eqn:Ho; [|discriminate]. inversion H; subst.
    destruct (IH _ eq_refl) as (Hw & Hz & Ht). split.
    + constructor; auto. congruence.
    + cbn [tree_of ltree]. congruence.
  - intros l h b Hh Hl IH Hf m H. cbn [strict] in H.
    match type of H with option_map _ ?x = _ => destruct x as [ms|] eqn:Ho end; [|discriminate].
    inversion H; subst. destruct (IH _ eq_refl) as (Hw & Hz & Ht). split.
    + constructor; auto. congruence.
    + rewrite ltree_map, tree_of_map, Ht.
      destruct ms, l; auto; rewrite ?zlen_cons, ?zlen_nil in Hz;
        try (pose proof (zlen_nonneg l); lia); pose proof (zlen_nonneg ms); lia.
  - intros ms H. inversion H; subst. repeat split; auto. constructor.
  - intros l ls b c Hw IH Hws IHs ms H. cbn [map opt_all] in H.
    destruct (strict l) as [m|] eqn:Hs; [|discriminate].
    destruct (opt_all (map strict ls)) as [ms'|] eqn:Ho; [|discriminate]. inversion H; subst.
    destruct (IH _ eq_refl) as (Hm & Ht). destruct (IHs _ eq_refl) as (Hms & Hz & Hts).
    repeat split; [constructor; auto|rewrite !zlen_cons; lia|cbn [map]; congruence].
  - intros ms H. inversion H; subst. repeat split; auto. constructor.
  - intros bk k l ls h b c Hk Hh Hw IH Hws IHs ms H. cbn [map opt_all fst snd] in H.
    destruct bk; [discriminate|]. destruct (strict l) as [m|] eqn:Hs; [|discriminate]. cbn [option_map] in H.
    match type of H with context [opt_all ?x] => destruct (opt_all x) as [ms'|] eqn:Ho end; [|discriminate].
    inversion H; subst.
    destruct (IH _ eq_refl) as (Hm & Ht). destruct (IHs _ eq_refl) as (Hms & Hz & Hts).
    repeat split.
    + constructor; auto. inversion Hh; auto.
    + rewrite !zlen_cons; lia.
    + cbn [map]. rewrite Hts. unfold kv_tree, lkv. cbn [fst snd]. congruence.
Qed.

Theorem dec_sound_strict b v t : bytes_ok b -> mp_decode E b = Ok (v, t) ->
  exists l d, b = d ++ t /\ lwire l d /\ v = ltree E l /\
    forall m, strict l = Some m -> wire m d /\ v = tree_of E m.
Proof.
  intros Hb H. apply dec_sound in H as (l & d & H1 & H2 & H3); auto.
  exists l, d. repeat split; auto; destruct (proj1 strict_wire _ _ H2 _ H); auto; congruence.
Qed.

(** A nil value in the result needs the never-used byte 0xc1 in the input. *)
Lemma lnil_all :
  (forall l d, lwire l d -> has_nil (ltree E l) -> In 0xc1 d) /\
  (forall ls d, lwires ls d -> forall x, In x (map (ltree E) ls) -> has_nil x -> In 0xc1 d) /\
  (forall ls d, lkwires ls d -> forall k x, In (k, x) (map lkv ls) -> has_nil x -> In 0xc1 d).
Proof.
  apply lwire_mutind.
  - intros m b _ _ H. exfalso. eapply tree_no_nil; eauto.
  - intros n p bits _ _ H. inversion H.
  - intros p bits _ _ H. inversion H.
  - intros junk _. left; auto.
  - intros l h b _ _ IH H. inversion H; subst. apply in_or_app; right. eapply IH; eauto.
  - intros l h b _ _ IH _ H. rewrite ltree_map in H. apply in_or_app; right.
    assert (HX : forall u, has_nil (VObject u (upserts (key_match E) (map lkv l) [])) -> In 0xc1 b).
    { intros u H'. inversion H'; subst.
      match goal with K : In _ (upserts _ _ _) |- _ => apply upserts_in in K as [[k' K]|K] end; [|contradiction].
      eapply IH; eauto. }
    destruct l; eapply HX; eauto.
  - intros x [].
  - intros l ls b c _ IH _ IHs x [<-|Hin] Hx; apply in_or_app; [left|right]; eauto.
  - intros k x [].
  - intros bk k l ls h b c _ _ _ IH _ IHs k' x [Heq|Hin] Hx; apply in_or_app; right; apply in_or_app; right;
      apply in_or_app; [left|right].
    + inversion Heq; subst. auto.
    + eapply IHs; eauto.
Qed.
Theorem dec_nil_c1 b v t : bytes_ok b -> mp_decode E b = Ok (v, t) -> has_nil v -> In 0xc1 b.
Proof.
  intros Hb H Hn. apply dec_sound in H as (l & d & -> & Hw & ->); auto.
  apply in_or_app; left. eapply (proj1 lnil_all); eauto.
Qed.

(** ** Extension data *)
(** For the five lengths that have a fixext form both headers are written; the decoder
    then reads the second header as type and data. *)
Theorem ext_fixlen t p rest : In (zlen p) [1; 2; 4; 8; 16] ->
  mp_decode E (Value2MsgPack E (VExBinary 0 (t :: p)) [] ++ rest) =
  Ok (VExBinary 0 (0xc7 :: zlen p :: firstn (Z.to_nat (zlen p - 1)) (t :: p)),
      skipn (Z.to_nat (zlen p - 1)) (t :: p) ++ rest).
Proof.
  intros Hin. change (Value2MsgPack E (VExBinary 0 (t :: p)) []) with (writeExtCode (zlen p) [] ++ t :: p).
  assert (HL : exists c, (forall b, parseExtLen c b = Ok (zlen p, b)) /\ IsExt c = true /\
    writeExtCode (zlen p) [] = [c; 0xc7; zlen p]).
  { simpl in Hin. destruct Hin as [H|[H|[H|[H|[H|[]]]]]]; rewrite <- H.
    - exists 0xd4; repeat split. - exists 0xd5; repeat split. - exists 0xd6; repeat split.
    - exists 0xd7; repeat split. - exists 0xd8; repeat split. }
  destruct HL as (c & Hp & Hc & ->). destruct (ext_other E c Hc) as (H1 & H2 & H3 & H4).
  assert (Hz : 1 <= zlen p) by (simpl in Hin; lia). clear Hin.
  cbn [app]. change (dec E (c :: 0xc7 :: zlen p :: t :: p ++ rest) = Ok (VExBinary 0 (0xc7 :: zlen p :: firstn (Z.to_nat (zlen p - 1)) (t :: p)),
      skipn (Z.to_nat (zlen p - 1)) (t :: p) ++ rest)).
  rewrite dec_scalar by auto. rewrite H4. unfold parseExt. rewrite Hp. cbn [bind].
  pose proof (zlen_nonneg rest). rewrite !zlen_cons, zlen_app.
  replace (1 + (1 + (1 + (zlen p + zlen rest))) <? zlen p) with false by lia.
  replace (1 + (1 + (1 + (zlen p + zlen rest))) <? zlen p + 1) with false by lia.
  replace (IsTime c 199) with false by reflexivity.
  destruct (zlen_firstn_ok (t :: p) rest (zlen p - 1)) as [Hf Hs]; [rewrite zlen_cons; lia|].
  replace (Z.to_nat (zlen p + 1)) with (S (S (Z.to_nat (zlen p - 1)))) by lia.
  cbn [firstn skipn]. change (t :: p ++ rest) with ((t :: p) ++ rest). rewrite Hf, Hs. reflexivity.
Qed.

(** ** Duplicate keys *)
Section Same.
Context (same : bytes -> bytes -> bool)
  (Hrefl : forall a, same a a = true) (Hsym : forall a b, same a b = true -> same b a = true)
  (Htr : forall a b c, same a b = true -> same b c = true -> same a c = true).

Lemma same_cong a b c : same a b = true -> same a c = same b c.
Proof.
  intros H. destruct (same a c) eqn:H1, (same b c) eqn:H2; auto.
  - rewrite <- H2. symmetry. eauto.
  - rewrite <- H1. eauto.
Qed.

Lemma upsert_keys {A} (l : list (bytes * A)) k x :
  map fst (upsert same l k x) =
  if existsb (fun s => same s k) (map fst l) then map fst l else map fst l ++ [k].
Proof.
  induction l as [|[k' y] l IH]; cbn [upsert map fst existsb]; auto.
  destruct (same k' k); auto. cbn [map fst orb]. rewrite IH.
  destruct (existsb _ (map fst l)); reflexivity.
Qed.
Lemma upserts_keys {A} (l acc : list (bytes * A)) :
  map fst (upserts same l acc) = map fst acc ++ first_occ same (map fst acc) (map fst l).
Proof.
  revert acc; induction l as [|[k x] l IH]; intros acc; cbn [map fst first_occ].
  - rewrite app_nil_r; reflexivity.
  - unfold upserts in *; cbn [fold_left]. rewrite IH. cbn [fst snd]. rewrite upsert_keys.
    destruct (existsb _ (map fst acc)); auto. rewrite <- app_assoc; reflexivity.
Qed.
Lemma upsert_assoc {A} (l : list (bytes * A)) k x k0 :
  assoc_first same k0 (upsert same l k x) =
  if same k k0 then Some x else assoc_first same k0 l.
Proof.
  induction l as [|[k' y] l IH]; cbn [upsert assoc_first]; auto.
  destruct (same k' k) eqn:H; cbn [assoc_first].
  - rewrite (same_cong _ _ k0 H). destruct (same k k0); auto.
  - rewrite IH. destruct (same k' k0) eqn:H1; auto.
    destruct (same k k0) eqn:H2; auto. exfalso.
    assert (same k' k = true) by eauto. congruence.
Qed.
Lemma upserts_assoc {A} (l acc : list (bytes * A)) k0 :
  assoc_first same k0 (upserts same l acc) =
  fold_left (fun a kv => if same (fst kv) k0 then Some (snd kv) else a) l (assoc_first same k0 acc).
Proof.
  revert acc; induction l as [|[k x] l IH]; intros acc; auto.
  unfold upserts in *; cbn [fold_left fst snd]. rewrite IH, upsert_assoc. reflexivity.
Qed.
End Same.

Lemma key_match_equiv : fold_equiv E ->
  (forall a, key_match E a a = true) /\ (forall a b, key_match E a b = true -> key_match E b a = true) /\
  (forall a b c, key_match E a b = true -> key_match E b c = true -> key_match E a c = true).
Proof.
  intros H. unfold key_match. destruct (ignore_case E) eqn:Hi; cbn [andb orb].
  - destruct (H Hi) as (Hr & Hs & Ht).
    assert (HO : forall a b, x_fold E a b || beq a b = true -> x_fold E a b = true).
    { intros a b HH. apply orb_true_iff in HH as [HH|HH]; auto. apply beq_eq in HH; subst; auto. }
    repeat split; intros.
    + rewrite Hr; auto.
    + apply HO in H0. rewrite (Hs _ _ H0); auto.
    + apply HO in H0, H1. rewrite (Ht _ _ _ H0 H1); auto.
  - repeat split; intros.
    + apply beq_refl.
    + rewrite beq_sym; auto.
    + apply beq_eq in H0, H1. subst; apply beq_refl.
Qed.

Theorem dup_keys kvs d rest v : fold_equiv E -> wire (MMap kvs) d -> ext_clean (MMap kvs) ->
  mp_decode E (d ++ rest) = Ok (v, rest) ->
  exists u items, v = VObject u items /\
    map fst items = first_occ (key_match E) [] (map fst kvs) /\
    forall k, assoc_first (key_match E) k items =
      option_map (tree_of E) (assoc_last (key_match E) k kvs).
Proof.
  intros HE Hw Hc H. rewrite (wire_dec E _ _ _ Hw Hc) in H. inversion H; subst v; clear H.
  apply key_match_equiv in HE as (Hr & Hs & Ht).
  exists (match kvs with [] => false | _ => true end), (upserts (key_match E) (map (kv_tree E) kvs) []).
  repeat split.
  - destruct kvs; reflexivity.
  - rewrite upserts_keys. cbn [map app]. f_equal. rewrite map_map. reflexivity.
  - intros k. rewrite upserts_assoc by auto. cbn [assoc_first]. unfold assoc_last.
    change (@None value) with (option_map (tree_of E) None). generalize (@None mval).
    clear. induction kvs as [|[k' m] l IH]; intros o; cbn [map fold_left fst snd]; auto.
    rewrite <- IH. cbn [kv_tree fst snd]. destruct (key_match E k' k); reflexivity.
Qed.
End Thms.

Section Corollaries.
Context (E : env).

Theorem int_dec_exact n b r : int_wire n b ->
  mp_decode E (b ++ r) = Ok (VInt 0 (if n <? 2 ^ 63 then n else n - 2 ^ 64), r).
Proof. apply int_wire_dec. Qed.

Lemma wire_nonempty : (forall m b, wire m b -> b <> []) /\
  (forall (l : list mval) b, wires l b -> True) /\ (forall (l : list (bytes * mval)) b, kwires l b -> True).
Proof.
  apply wire_mutind; intros; auto; try discriminate.
  - destruct i; discriminate.
  - destruct s0; discriminate.
  - destruct b0; discriminate.
  - destruct e; discriminate.
  - destruct t; discriminate.
  - destruct a; discriminate.
  - destruct m; discriminate.
Qed.

Theorem enc_trunc v m p q : fits E v -> no_fixext v -> message_of E v = Some m -> ext_clean m ->
  Value2MsgPack E v [] = p ++ q -> q <> [] -> forall x t, mp_decode E p <> Ok (x, t).
Proof.
  intros Hf Hn Hm Hc Heq Hq. apply wire_trunc with m q; auto. rewrite <- Heq. apply V2M_wire; auto.
Qed.

Theorem ext_fixlen_nonconforming t p : In (zlen p) [1; 2; 4; 8; 16] ->
  forall m, ext_clean m -> ~ wire m (Value2MsgPack E (VExBinary 0 (t :: p)) []).
Proof.
  intros Hin m Hc Hw. apply (wire_dec E _ _ []) in Hw; auto.
  rewrite ext_fixlen in Hw by auto. assert (Hw' : skipn (Z.to_nat (zlen p - 1)) (t :: p) ++ [] = []) by congruence.
  rewrite app_nil_r in Hw'. apply (f_equal zlen) in Hw'. rewrite zlen_nil in Hw'.
  unfold zlen in Hw'. rewrite skipn_length in Hw'. cbn [length] in Hw'.
  unfold zlen in Hin. simpl in Hin. lia.
Qed.

Theorem ext_other_ok t p rest : byte_ok t -> bytes_ok p -> t <> 255 -> zlen p < 2 ^ 32 ->
  ~ In (zlen p) [1; 2; 4; 8; 16] ->
  mp_decode E (Value2MsgPack E (VExBinary 0 (t :: p)) [] ++ rest) = Ok (VExBinary 0 (t :: p), rest).
Proof.
  intros Ht Hp Hne Hl Hin. apply mp_roundtrip; simpl; auto.
  split; [constructor; auto|]. rewrite zlen_cons. lia.
Qed.

Theorem time_exact bits sec nsec rest : x_totime E bits = (sec, nsec) -> i64_ok sec ->
  0 <= nsec <= 999999999 ->
  mp_decode E (Value2MsgPack E (VDateTime bits) [] ++ rest) =
    Ok (VDateTime (x_delphi E (sec, nsec)), rest) /\
  zlen (Value2MsgPack E (VDateTime bits) []) =
    (if (nsec =? 0) && (0 <=? sec) && (sec <? 2 ^ 32) then 6
     else if (0 <=? sec) && (sec <? 2 ^ 34) then 10 else 15).
Proof.
  intros Ht Hs Hn. split.
  - cbn [Value2MsgPack]. rewrite Ht. apply time_dec, writeTime_ok; auto.
  - cbn [Value2MsgPack]. rewrite Ht. unfold writeTime, to_u64, i64_ok in *. cbn [app].
    destruct (sec mod 2 ^ 64 / 2 ^ 34 =? 0) eqn:H1; [destruct ((nsec * 2 ^ 34 + sec mod 2 ^ 64) / 2 ^ 32 =? 0) eqn:H2 |].
    + assert (0 <= sec < 2 ^ 34) by lia.
      rewrite (Z.mod_small sec) in H2 by lia.
      assert (nsec = 0 /\ sec < 2 ^ 32) by lia.
      replace ((nsec =? 0) && (0 <=? sec) && (sec <? 2 ^ 32)) with true by lia. reflexivity.
    + assert (0 <= sec < 2 ^ 34) by lia.
      rewrite (Z.mod_small sec) in H2 by lia.
      assert (nsec <> 0 \/ 2 ^ 32 <= sec) by lia.
      replace ((nsec =? 0) && (0 <=? sec) && (sec <? 2 ^ 32)) with false by lia.
      replace ((0 <=? sec) && (sec <? 2 ^ 34)) with true by lia. reflexivity.
    + assert (sec < 0 \/ 2 ^ 34 <= sec) by lia.
      replace ((nsec =? 0) && (0 <=? sec) && (sec <? 2 ^ 32)) with false by lia.
      replace ((0 <=? sec) && (sec <? 2 ^ 34)) with false by lia. reflexivity.
Qed.

Theorem dec_cases b : bytes_ok b ->
  (exists v t, mp_decode E b = Ok (v, t) /\ (has_nil v -> In 0xc1 b)) \/
  (exists e, mp_decode E b = Err e) \/
  (mp_decode E b = Panic /\ exists p s, b = p ++ s /\ fatal_tail s).
Proof.
  intros Hb. destruct (mp_decode E b) as [[v t]| | |] eqn:H.
  - left. exists v, t. split; auto. eapply dec_nil_c1; eauto.
  - right; left; eauto.
  - right; right. split; auto. eapply dec_panic; eauto.
  - exfalso. eapply dec_total; eauto.
Qed.

Lemma fuel_any f b : (mp_fuel b <= f)%nat -> mp_value E f b = mp_decode E b.
Proof. intros H. apply mp_value_dec. unfold mp_fuel in H. lia. Qed.

Lemma nan_fold (l : list value) dst : Forall (fun x => x = VNan \/ x = VInf) l ->
  fold_left (fun d x => Value2MsgPack E x d) l dst = dst.
Proof. intros H; induction H as [|x l [->| ->] _ IH]; cbn [fold_left Value2MsgPack]; auto. Qed.

Theorem nan_unreadable l rest : Forall (fun x => x = VNan \/ x = VInf) l -> l <> [] -> zlen l < 2 ^ 32 ->
  rest = [] -> forall v t, mp_decode E (Value2MsgPack E (VArray l) [] ++ rest) <> Ok (v, t).
Proof.
  intros Hl Hne Hz -> v t. rewrite app_nil_r. cbn [Value2MsgPack]. rewrite nan_fold by auto.
  destruct (arr_hdr_parse _ _ (arr_hdr_ok (zlen l) (conj (zlen_nonneg l) Hz))) as (c & h & -> & HA & HS & Hp).
  change (dec E (c :: h) <> Ok (v, t)). rewrite dec_eq, HS, HA, <- (app_nil_r h), Hp. cbn [bind].
  assert (0 < zlen l) by (destruct l; [congruence|rewrite zlen_cons; pose proof (zlen_nonneg l); lia]).
  replace (zlen l =? 0) with false by lia. rewrite decarr_eq.
  replace (zlen l <=? 0) with false by lia. rewrite dec_eq. discriminate.
Qed.
End Corollaries.
