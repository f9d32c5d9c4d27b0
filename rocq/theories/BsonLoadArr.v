(** LoadFromBson of an array document into an array. *)
From Verif Require Import Base Values Tactics HeapModel HeapSpec HeapBase HeapConf HeapGet ApiSpec BsonModel BsonSpec BsonThms BsonRound BsonEncode
  BsonLoadModel MsgLoadThms BsonLoadThms.

Section Arr.
Variable E : env.
Variable G : nat -> nat.
Notation N := none_set.

Lemma elem_kept a s c (D : nat_set) l w put sl r (f : st -> nat -> res (st * (gerr + Z))) s1 x1 :
  wf s -> ok_cache N s c -> good s D -> D l -> slot_own s c D l w put sl ->
  (forall x s0 Dx, wf s0 -> ok_cache N s0 c -> good s0 Dx -> own (hp s0) x w Dx -> doc_res a s0 c Dx x r (f s0 x)) ->
  (do (x, s0) <- sl; f s0 x) = Ok (s1, x1) -> c_own (hp s1 l) = c_own (hp s l).
Proof.
  intros W OC GD DL (x & s0 & D0 & Dx & (ND & CO) & -> & C0 & SX & OX & RB) H. cbn [bind]. intros Q. rewrite <- CO.
  pose proof (chg_good _ _ _ _ _ C0) as GD0. pose proof (chg_cache _ _ _ _ _ C0 W GD OC) as OC0.
  specialize (H x s0 Dx (ch_wf _ _ _ _ _ C0) OC0 (fun z Z => GD0 z (SX z Z)) OX). rewrite Q in H.
  assert (LL : live s0 l) by (apply (ch_lives _ _ _ _ _ C0), GD, DL).
  assert (K : forall D1, chg s0 c Dx s1 D1 -> c_own (hp s1 l) = c_own (hp s0 l)).
  { intros D1 C1. rewrite (ch_frame _ _ _ _ _ C1 l LL ND). reflexivity. }
  destruct r as [[n u]|e| |]; cbn [doc_res] in H; try discriminate.
  - destruct H as (s2 & D1 & Q1 & C1 & _). injection Q1 as <- _. eauto.
  - destruct H as (s2 & D1 & u & Q1 & C1 & _). injection Q1 as <- _. eauto.
Qed.
Lemma elem_kept_value s c (D : nat_set) l put sl bt b s1 x1 :
  wf s -> ok_cache N s c -> good s D -> D l -> bytes_ok b -> slot_own s c D l VNull put sl ->
  (do (x, s0) <- sl; hb_value E s0 x bt b) = Ok (s1, x1) -> c_own (hp s1 l) = c_own (hp s l).
Proof.
  intros W OC GD DL B (x & s0 & D0 & Dx & (ND & CO) & -> & C0 & SX & OX & RB). cbn [bind]. intros Q. rewrite <- CO.
  pose proof (chg_good _ _ _ _ _ C0) as GD0.
  pose proof (value_ok E G s0 c Dx x bt b (ch_wf _ _ _ _ _ C0) (fun z Z => GD0 z (SX z Z)) OX B) as H. rewrite Q in H.
  assert (LL : live s0 l) by (apply (ch_lives _ _ _ _ _ C0), GD, DL).
  assert (K : forall D1, chg s0 c Dx s1 D1 -> c_own (hp s1 l) = c_own (hp s0 l)).
  { intros D1 C1. rewrite (ch_frame _ _ _ _ _ C1 l LL ND). reflexivity. }
  destruct (bson_value E bt b) as [[n u]|e| |]; cbn [value_res] in H; try discriminate.
  - destruct H as (s2 & Q1 & C1 & _). injection Q1 as <- _. eauto.
  - destruct H as (s2 & u & Q1 & C1 & _). injection Q1 as <- _. eauto.
Qed.

(** As long as the names are numbers an array as receiver is filled like an embedded array. *)
Lemma slot_number s l key t : c_dt (hp s l) = TArray -> x_str2int E key (-1) <> -1 ->
  hb_slot E G false s l key 0 t (c_own (hp s l)) = hb_slot E G true s l key (x_str2int E key (-1)) t (c_own (hp s l)).
Proof.
  intros DT NK. unfold hb_slot, SetKeyCached. cbv zeta. rewrite DT. change (vt_eqb TArray TArray) with true.
  rewrite (proj2 (Z.eqb_neq _ _) NK). reflexivity.
Qed.
Definition elem_tree f (vs : list value) key ai bt b2 : res (Z * value) :=
  if bt =? BSON_Array then bs_doc E f true b2 (cell_at E true (VArray vs) key ai KArr)
  else if bt =? BSON_EmbeddedDocument then bs_doc E f false b2 (cell_at E true (VArray vs) key ai KObj) else bson_value E bt b2.
Definition elem_heap f s l c key ai bt b2 : res (st * (gerr + Z)) :=
  if bt =? BSON_Array then do (x, s0) <- hb_slot E G true s l key ai TArray c; hb_doc E G f true s0 x c b2
  else if bt =? BSON_EmbeddedDocument then do (x, s0) <- hb_slot E G true s l key ai TObject c; hb_doc E G f false s0 x c b2
  else do (x, s0) <- hb_slot E G true s l key ai TNull c; hb_value E s0 x bt b2.
Lemma elem_array f s c (D : nat_set) l vs key ai bt b2 : wf s -> ok_cache N s c -> good s D -> own (hp s) l (VArray vs) D -> bytes_ok b2 ->
  elem_res s c D l (store_at E (VArray vs) key ai) (elem_tree f vs key ai bt b2) (elem_heap f s l c key ai bt b2) /\
  forall s1 x1, elem_heap f s l c key ai bt b2 = Ok (s1, x1) -> c_own (hp s1 l) = c_own (hp s l).
Proof.
  intros W OC GD O B2. pose proof (own_in _ _ _ _ O) as DL.
  assert (KD : of_kind true (VArray vs)) by (exists vs; reflexivity).
  pose proof (fun k => slot_arr_own E G s c D l vs key ai k W OC GD O) as SO.
  unfold elem_tree, elem_heap. destruct (bt =? BSON_Array); [|destruct (bt =? BSON_EmbeddedDocument)].
  - assert (X : forall x s0 Dx, wf s0 -> ok_cache N s0 c -> good s0 Dx -> own (hp s0) x (cell_at E true (VArray vs) key ai KArr) Dx ->
      doc_res true s0 c Dx x (bs_doc E f true b2 (cell_at E true (VArray vs) key ai KArr)) (hb_doc E G f true s0 x c b2)).
    { intros x s0 Dx W0 OC0 GD0 OX. apply (proj1 (hb_ok E G f)); auto. exact (cell_kind E true (VArray vs) key ai true). }
    split.
    + apply (elem_doc true s c D l _ _ _ _ (fun s0 x => hb_doc E G f true s0 x c b2) W OC GD (slot_any E G true s c D l _ key ai KArr W OC GD O KD)). exact X.
    + intros s1 x1. exact (elem_kept true s c D l _ _ _ _ (fun s0 x => hb_doc E G f true s0 x c b2) s1 x1 W OC GD DL (SO KArr) X).
  - assert (X : forall x s0 Dx, wf s0 -> ok_cache N s0 c -> good s0 Dx -> own (hp s0) x (cell_at E true (VArray vs) key ai KObj) Dx ->
      doc_res false s0 c Dx x (bs_doc E f false b2 (cell_at E true (VArray vs) key ai KObj)) (hb_doc E G f false s0 x c b2)).
    { intros x s0 Dx W0 OC0 GD0 OX. apply (proj1 (hb_ok E G f)); auto. exact (cell_kind E true (VArray vs) key ai false). }
    split.
    + apply (elem_doc false s c D l _ _ _ _ (fun s0 x => hb_doc E G f false s0 x c b2) W OC GD (slot_any E G true s c D l _ key ai KObj W OC GD O KD)). exact X.
    + intros s1 x1. exact (elem_kept false s c D l _ _ _ _ (fun s0 x => hb_doc E G f false s0 x c b2) s1 x1 W OC GD DL (SO KObj) X).
  - pose proof (cell_null E true (VArray vs) key ai) as CN. split.
    + apply elem_value; auto. rewrite <- CN. exact (slot_any E G true s c D l _ key ai KNull W OC GD O KD).
    + intros s1 x1. specialize (SO KNull). rewrite CN in SO. exact (elem_kept_value s c D l _ _ bt b2 s1 x1 W OC GD DL B2 SO).
Qed.
Lemma arr_cache s (D : nat_set) l : wf s -> good s D -> D l -> ok_cache N s (c_own (hp s l)).
Proof. intros W GD DL. apply (own_ok N N); auto. split; [apply (GD l DL)|intros []]. Qed.
Lemma arr_type h l vs D : own h l (VArray vs) D -> c_dt (h l) = TArray.
Proof. intros O. inversion O as [? ? ? L| |]; subst; [destruct L|assumption]. Qed.
Lemma loop_array fuel : forall s (D : nat_set) l vs b n i, wf s -> good s D -> own (hp s) l (VArray vs) D -> bytes_ok b ->
  bs_loop E fuel true b n i (VArray vs) <> Err ErrInvalidArrayBsonIndex ->
  hb_loop E G fuel false s l (c_own (hp s l)) b n i = hb_loop E G fuel true s l (c_own (hp s l)) b n i.
Proof.
  induction fuel as [|f IH]; intros s D l vs b n i W GD O B NE; [reflexivity|]. pose proof (own_in _ _ _ _ O) as DL.
  pose proof (arr_cache s D l W GD DL) as OC. pose proof (arr_type _ _ _ _ O) as DT.
  rewrite !hb_loop_S. cbn [bs_loop] in NE.
  destruct (n <=? i); [reflexivity|]. pose proof (skipn_ok (Z.to_nat i) b B) as B1. destruct (skipn (Z.to_nat i) b) as [|bt b1]; [reflexivity|].
  apply Forall_inv_tail in B1. destruct (index_byte b1 0) as [ke|]; [|reflexivity]. cbv zeta in *. cbn [andb] in *.
  pose proof (skipn_ok (S ke) b1 B1) as B2. set (b2 := skipn (S ke) b1) in *. clearbody b2. set (key := firstn ke b1) in *. clearbody key.
  set (ai := x_str2int E key (-1)) in *. destruct (Z.eqb_spec ai (-1)) as [Q|NK]; [congruence|].
  rewrite !slot_number by auto. fold ai. set (c := c_own (hp s l)) in *.
  fold (elem_tree f vs key ai bt b2) in NE. fold (elem_heap f s l c key ai bt b2).
  destruct (elem_array f s c D l vs key ai bt b2 W OC GD O B2) as [EL CK].
  destruct (elem_tree f vs key ai bt b2) as [[m0 u]|e| |]; cbn [elem_res] in EL.
  - destruct EL as (s1 & D1 & Q & C1 & O1). rewrite Q in *. specialize (CK s1 _ eq_refl). cbn [bind] in *.
    destruct (_ && _); [reflexivity|]. destruct (store_kind E true (VArray vs) key ai u (ex_intro _ vs eq_refl)) as (vs1 & SV). rewrite SV in *. fold c in CK. rewrite <- CK.
    apply (IH s1 D1 l vs1); auto; [apply C1|exact (chg_good _ _ _ _ _ C1)].
  - destruct EL as (s1 & D1 & u & -> & _). reflexivity.
  - rewrite EL. reflexivity.
  - rewrite EL. reflexivity.
Qed.
Theorem load_array s s1 l b n v : wf s -> Clear s l = Ok s1 -> live s1 l -> (5 <= l)%nat -> bytes_ok b -> 4 < zlen b ->
  c_dt (hp s l) = TArray -> bs_doc E (bs_fuel b) true b (VArray []) = Ok (n, v) ->
  exists s', h_LoadFromBson E G s l b = Ok (s', None) /\ wf s' /\ rep (hp s') (Some l) v /\ stays s1 l s'.
Proof.
  intros W CL L L5 B B4 D Q. pose proof (clear_live_wf s s1 l W CL L) as W1. pose proof (Clear_cell s l s1 CL) as HC.
  destruct (clear_same (hp s l)) as (C1 & _). rewrite <- HC in C1. rewrite D in C1.
  assert (CA : c_arr (hp s1 l) = []) by (rewrite HC; unfold clear_cell; rewrite D; reflexivity).
  unfold h_LoadFromBson. rewrite CL. cbn [bind]. destruct b as [|b0 b]; [cbn in B4; lia|]. set (b' := b0 :: b) in *. clearbody b'.
  assert (O : own (hp s1) l (VArray []) (fun z => z = l)).
  { apply (own_arr _ l [] _ (fun _ => False)); auto; [rewrite CA; constructor|intros z []]. }
  assert (GD : good s1 (fun z => z = l)) by (intros z ->; auto).
  assert (OC : ok_cache N s1 (c_own (hp s1 l))) by (apply (own_ok N N); auto; split; [apply L|intros []]).
  pose proof (proj1 (hb_ok E G (bs_fuel b')) true s1 _ _ l _ b' W1 OC GD O (ex_intro _ [] eq_refl) B) as H. rewrite Q in H. cbn [doc_res] in H.
  destruct H as (s' & D' & H & C2 & O2 & _).
  assert (EQ : hb_doc E G (bs_fuel b') false s1 l (c_own (hp s1 l)) b' = hb_doc E G (bs_fuel b') true s1 l (c_own (hp s1 l)) b').
  { destruct (bs_fuel b') as [|f]; [discriminate Q|]. cbn [hb_doc bs_doc] in *. fold (hb_loop E G) in *. cbn [negb andb] in *.
    destruct (Z.leb_spec (zlen b') 4); [lia|]. destruct (le32 b') as [m| | |]; try reflexivity. cbn [bind] in *.
    destruct (zlen b' <? m); [reflexivity|]. rewrite (loop_array f s1 (fun z => z = l) l []); auto.
    intros X. rewrite X in Q. discriminate. }
  rewrite EQ, H. cbn [bind]. exists s'. split; [reflexivity|]. split; [apply C2|].
  split; [apply (proj1 (own_rep_all (hp s')) _ _ _ O2)|exact (chg_stays _ _ _ _ _ _ C2 O2)].
Qed.
(** What the format makes of an array. *)
Lemma frame_long body r : 4 < zlen (frame body ++ r).
Proof. unfold frame, zlen. rewrite !app_length. cbn [le le_bytes List.length]. lia. Qed.
Theorem load_barr s s1 l xs rest : wf s -> Clear s l = Ok s1 -> live s1 l -> (5 <= l)%nat -> c_dt (hp s l) = TArray ->
  index_parser_ok E -> bwf (BArr xs) -> readable E (BArr xs) -> dates_ok (BArr xs) -> zlen (payload (BArr xs)) < 2 ^ 32 -> bytes_ok (payload (BArr xs) ++ rest) ->
  exists s', h_LoadFromBson E G s l (payload (BArr xs) ++ rest) = Ok (s', None) /\ wf s' /\ rep (hp s') (Some l) (btree E (BArr xs)) /\ stays s1 l s'.
Proof.
  intros W CL L L5 D Hx Hw Hr Hd Hz B.
  pose proof (reads_all E Hx _ Hw Hr Hd Hz rest) as H. cbn [reads_at] in H. specialize (H (bs_fuel (payload (BArr xs) ++ rest)) ltac:(unfold bs_fuel; lia)).
  apply (load_array s s1 l _ (zlen (payload (BArr xs))) (btree E (BArr xs))); auto. apply frame_long.
Qed.

(** ** Members named 0, 1, ... followed by one with another name *)
Lemma elem_reads f vs key ai m x tl : (forall kd, cell_at E true (VArray vs) key ai kd = empty_of kd) -> reads_at E m tl x ->
  (2 * List.length (payload m ++ tl) + 2 <= f)%nat -> elem_tree f vs key ai (btag m) (payload m ++ tl) = Ok (zlen (payload m), x).
Proof.
  intros Hc Hm Hl. unfold elem_tree. destruct m; cbn [btag reads_at] in *; try (simpl (_ =? BSON_Array); simpl (_ =? BSON_EmbeddedDocument); cbv iota);
    try (rewrite Hc; apply Hm; exact Hl); apply Hm.
Qed.
Lemma body_of (pre : bytes) k m tl : no_nul k -> exists b1, skipn (Z.to_nat (zlen pre)) (pre ++ element (k, m) ++ tl) = btag m :: b1 /\
  index_byte b1 0 = Some (List.length k) /\ firstn (List.length k) b1 = k /\ skipn (S (List.length k)) b1 = payload m ++ tl.
Proof.
  intros NK. exists (k ++ 0 :: payload m ++ tl). rewrite skipn_zlen_app. split; [unfold element; cbn [app fst snd]; rewrite <- app_assoc; reflexivity|].
  split; [apply index_byte_app; auto|]. split; [rewrite firstn_app, firstn_all, Nat.sub_diag, firstn_O, app_nil_r; reflexivity|].
  rewrite skipn_app, skipn_all2 by lia. replace (S (List.length k) - List.length k)%nat with 1%nat by lia. reflexivity.
Qed.
Lemma prefix_step f s (D : nat_set) l vs (pre : bytes) k m x tl docLen :
  wf s -> good s D -> own (hp s) l (VArray vs) D -> bytes_ok (pre ++ element (k, m) ++ tl) -> reads_at E m tl x -> no_nul k -> zlen pre < docLen ->
  x_str2int E k (-1) = zlen vs -> (2 * List.length (element (k, m) ++ tl) <= f)%nat -> zlen pre + zlen (element (k, m)) <> docLen - 1 ->
  let c := c_own (hp s l) in
  exists s1 D1, hb_loop E G (S f) false s l c (pre ++ element (k, m) ++ tl) docLen (zlen pre) =
      hb_loop E G f false s1 l c (pre ++ element (k, m) ++ tl) docLen (zlen pre + zlen (element (k, m))) /\
    chg s c D s1 D1 /\ own (hp s1) l (VArray (vs ++ [x])) D1 /\ c_own (hp s1 l) = c.
Proof.
  intros W GD O B RD NK PL IX FU NE c. pose proof (own_in _ _ _ _ O) as DL.
  pose proof (arr_cache s D l W GD DL) as OC. pose proof (arr_type _ _ _ _ O) as DT. pose proof (zlen_nonneg vs) as Z0.
  rewrite hb_loop_S. destruct (Z.leb_spec docLen (zlen pre)); [lia|].
  destruct (body_of pre k m tl NK) as (b1 & -> & -> & KE & SE). cbv zeta. cbn [andb]. rewrite KE, SE.
  assert (NI : x_str2int E k (-1) <> -1) by lia. subst c. rewrite !slot_number by auto. rewrite IX. set (c := c_own (hp s l)) in *.
  assert (B2 : bytes_ok (payload m ++ tl)).
  { apply Forall_app in B as [_ B]. unfold element in B. cbn [fst snd app] in B. apply Forall_inv_tail in B. rewrite <- app_assoc in B. apply Forall_app in B as [_ B].
    rewrite <- app_comm_cons in B. exact (Forall_inv_tail B). }
  fold (elem_heap f s l c k (zlen vs) (btag m) (payload m ++ tl)).
  destruct (elem_array f s c D l vs k (zlen vs) (btag m) (payload m ++ tl) W OC GD O B2) as [EL CK].
  assert (RG : (0 <=? zlen vs) && (zlen vs <? zlen vs) = false) by (rewrite Z.ltb_irrefl; apply andb_false_r).
  rewrite (elem_reads f vs k (zlen vs) m x tl) in EL.
  - cbn [elem_res] in EL. destruct EL as (s1 & D1 & Q & C1 & O1). rewrite Q in *. specialize (CK s1 _ eq_refl). cbn [bind].
    cbn [store_at] in O1. rewrite RG in O1. exists s1, D1.
    assert (ZE : zlen pre + 1 + Z.of_nat (List.length k) + 1 + zlen (payload m) = zlen pre + zlen (element (k, m))).
    { rewrite zlen_element. unfold zlen. lia. }
    rewrite ZE. destruct (Z.eqb_spec (zlen pre + zlen (element (k, m))) (docLen - 1)); [contradiction|]. cbn [andb]. auto.
  - intros kd. cbn [cell_at]. rewrite RG. reflexivity.
  - exact RD.
  - unfold element in FU. cbn [fst snd app List.length] in FU. rewrite !app_length in *. cbn [List.length] in FU. rewrite ?app_length in FU. lia.
Qed.
Lemma prefix_steps : index_parser_ok E -> forall lx f s (D : nat_set) l vs (pre : bytes) tl docLen,
  wf s -> good s D -> own (hp s) l (VArray vs) D -> bytes_ok (pre ++ elements (number (zlen vs) (map fst lx)) ++ tl) -> all_read E (numbered (zlen vs) lx) tl ->
  zlen vs + zlen lx < 2 ^ 63 -> zlen pre + zlen (elements (number (zlen vs) (map fst lx))) < docLen - 1 ->
  (2 * List.length (elements (number (zlen vs) (map fst lx)) ++ tl) + 1 <= f)%nat ->
  let c := c_own (hp s l) in
  exists s1 D1 f1 pre1, hb_loop E G f false s l c (pre ++ elements (number (zlen vs) (map fst lx)) ++ tl) docLen (zlen pre) =
      hb_loop E G f1 false s1 l c (pre1 ++ tl) docLen (zlen pre1) /\
    pre1 = pre ++ elements (number (zlen vs) (map fst lx)) /\ (2 * List.length tl + 1 <= f1)%nat /\
    wf s1 /\ good s1 D1 /\ own (hp s1) l (VArray (vs ++ map snd lx)) D1 /\ c_own (hp s1 l) = c /\ chg s c D s1 D1.
Proof.
  intros Hx. induction lx as [|[m x] lx IH]; intros f s D l vs pre tl docLen W GD O B RD ZB DL FU c.
  - exists s, D, f, pre. cbn [number map] in *. unfold elements in *. cbn [map concat app] in *. rewrite !app_nil_r.
    repeat match goal with |- _ /\ _ => split end; auto. apply chg_refl; auto.
  - destruct f as [|f]; [lia|]. unfold numbered in RD. cbn [number map fst snd all_read] in *. rewrite elements_cons in *. rewrite <- !app_assoc in *.
    destruct RD as [R1 R2]. fold (numbered (zlen vs + 1) lx) in *. rewrite numbered_fst in R1.
    rewrite zlen_cons in ZB. pose proof (zlen_nonneg vs). pose proof (zlen_nonneg lx).
    assert (Hk : no_nul (fmt_int (zlen vs))) by (apply fmt_int_no_nul; auto). set (k := fmt_int (zlen vs)) in *.
    assert (Hi : x_str2int E k (-1) = zlen vs) by (apply Hx; lia). rewrite zlen_app in DL.
    pose proof (zlen_nonneg (elements (number (zlen vs + 1) (map fst lx)))). pose proof (zlen_element k m).
    pose proof (zlen_nonneg k). pose proof (zlen_nonneg (payload m)).
    destruct (prefix_step f s D l vs pre k m x (elements (number (zlen vs + 1) (map fst lx)) ++ tl) docLen W GD O B R1 Hk) as (s1 & D1 & Q & C1 & O1 & CO); try lia.
    fold c in Q, C1, CO. rewrite Q. rewrite (app_assoc pre), <- (zlen_app pre). rewrite <- CO.
    assert (ZV : zlen vs + 1 = zlen (vs ++ [x])) by (rewrite zlen_app; reflexivity). rewrite ZV in *.
    destruct (IH f s1 D1 l (vs ++ [x]) (pre ++ element (k, m)) tl docLen) as (s2 & D2 & f2 & pre2 & Q2 & P2 & F2 & W2 & G2 & O2 & CO2 & C2); auto.
    + apply C1.
    + exact (chg_good _ _ _ _ _ C1).
    + rewrite <- !app_assoc. exact B.
    + lia.
    + rewrite zlen_app. lia.
    + rewrite app_length in FU. unfold zlen in *. lia.
    + exists s2, D2, f2, pre2. rewrite Q2. split; [reflexivity|]. split; [rewrite P2, <- !app_assoc; reflexivity|]. split; [exact F2|].
      split; [exact W2|]. split; [exact G2|]. split; [rewrite <- app_assoc in O2; exact O2|]. split; [exact CO2|].
      rewrite CO in *. exact (chg_trans _ _ _ _ _ _ _ W C1 C2).
Qed.
Lemma loop_word f s l c (pre : bytes) k m tl n : c_dt (hp s l) = TArray -> x_str2int E k (-1) = -1 -> (5 <= l)%nat -> no_nul k -> zlen pre < n ->
  hb_loop E G (S f) false s l c (pre ++ element (k, m) ++ tl) n (zlen pre) = hb_loop E G (S f) false (Reset s l TObject) l c (pre ++ element (k, m) ++ tl) n (zlen pre).
Proof.
  intros DT KW L5 NK PL. rewrite !hb_loop_S. destruct (Z.leb_spec n (zlen pre)); [lia|].
  destruct (body_of pre k m tl NK) as (b1 & -> & -> & KE & SE). cbv zeta. cbn [andb]. rewrite KE, SE.
  assert (ND : c_dt (hp s l) <> TObject) by congruence. rewrite <- !(slot_reset E G s) by auto. reflexivity.
Qed.
Lemma members_read kvs : index_parser_ok E -> bwf (BDoc kvs) -> fold_right (fun kv P => readable E (snd kv) /\ P) True kvs -> dates_ok (BDoc kvs) ->
  zlen (payload (BDoc kvs)) < 2 ^ 32 -> Forall (fun kv => reads E (snd kv) /\ no_nul (fst kv)) kvs.
Proof.
  intros Hx Hw Hr Hd Hz. rewrite payload_doc in Hz. pose proof (zlen_frame (elements kvs)) as ZF.
  assert (Hin : forall kv, In kv kvs -> zlen (payload (snd kv)) < 2 ^ 32) by (intros kv K; apply elements_in in K; lia).
  cbn [bwf dates_ok] in *. clear Hz ZF. induction kvs as [|kv kvs IH]; constructor; cbn [fold_right] in *.
  - destruct Hw as ((_ & NN) & Hw & _), Hr as [Hr _], Hd as [Hd _]. split; [|exact NN]. apply reads_all; auto. apply Hin. left. auto.
  - apply IH; try tauto. intros kv' K. apply Hin. right. auto.
Qed.
Theorem load_mixed s s1 l ms k m kvs rest : let doc := number 0 ms ++ (k, m) :: kvs in
  wf s -> Clear s l = Ok s1 -> live s1 l -> (5 <= l)%nat -> c_dt (hp s l) = TArray -> index_parser_ok E -> x_str2int E k (-1) = -1 ->
  bwf (BDoc doc) -> readable E (BDoc doc) -> dates_ok (BDoc doc) -> zlen (payload (BDoc doc)) < 2 ^ 32 -> bytes_ok (payload (BDoc doc) ++ rest) ->
  exists s', h_LoadFromBson E G s l (payload (BDoc doc) ++ rest) = Ok (s', None) /\ wf s' /\ rep (hp s') (Some l) (btree E (BDoc ((k, m) :: kvs))).
Proof.
  intros doc W CL L L5 D Hx KW Hw Hr Hd Hz B. pose proof (clear_live_wf s s1 l W CL L) as W1. pose proof (Clear_cell s l s1 CL) as HC.
  destruct (clear_same (hp s l)) as (C1 & _). rewrite <- HC in C1. rewrite D in C1.
  assert (CA : c_arr (hp s1 l) = []) by (rewrite HC; unfold clear_cell; rewrite D; reflexivity).
  destruct Hr as (_ & Ha & Hr). pose proof (members_read doc Hx Hw Hr Hd Hz) as MR.
  assert (O : own (hp s1) l (VArray []) (fun z => z = l)).
  { apply (own_arr _ l [] _ (fun _ => False)); auto; [rewrite CA; constructor|intros z []]. }
  assert (GD : good s1 (fun z => z = l)) by (intros z ->; auto).
  unfold h_LoadFromBson. rewrite CL. cbn [bind]. pose proof (frame_long (elements doc) rest) as FL. rewrite <- payload_doc in FL.
  assert (EQ : exists body, payload (BDoc doc) ++ rest = le 4 (zlen body + 5) ++ body ++ 0 :: rest /\ body = elements doc).
  { exists (elements doc). split; [|reflexivity]. rewrite payload_doc. unfold frame. rewrite <- !app_assoc. reflexivity. }
  destruct EQ as (body & EQ & BE). rewrite payload_doc, <- BE in Hz. pose proof (zlen_frame body) as ZF.
  assert (H4 : zlen (le 4 (zlen body + 5)) = 4) by (unfold zlen, le; rewrite le_bytes_len; reflexivity).
  assert (HL : exists s', hb_loop E G (pred (bs_fuel (payload (BDoc doc) ++ rest))) false s1 l (c_own (hp s1 l)) (payload (BDoc doc) ++ rest) (zlen body + 5) 4 = Ok (s', None) /\
    wf s' /\ rep (hp s') (Some l) (btree E (BDoc ((k, m) :: kvs)))).
  { assert (FU : (2 * List.length (body ++ 0%Z :: rest) + 1 <= pred (bs_fuel (payload (BDoc doc) ++ rest)))%nat).
    { rewrite EQ. unfold bs_fuel. rewrite (app_length (le 4 _)). lia. }
    set (F := pred (bs_fuel (payload (BDoc doc) ++ rest))) in *. clearbody F.
    set (lx := map (fun x => (x, btree E x)) ms).
    assert (LX : map fst lx = ms) by (unfold lx; rewrite map_map; cbn [fst]; apply map_id).
    set (tl := elements ((k, m) :: kvs) ++ 0 :: rest).
    assert (BB : body ++ 0 :: rest = elements (number (zlen (@nil value)) (map fst lx)) ++ tl).
    { rewrite BE, LX. unfold doc, tl, elements. rewrite map_app, concat_app, <- app_assoc. reflexivity. }
    assert (ZB : zlen body = zlen (elements (number (zlen (@nil value)) (map fst lx))) + zlen (elements ((k, m) :: kvs))).
    { rewrite BE, LX. unfold doc, elements. rewrite map_app, concat_app, zlen_app. reflexivity. }
    assert (ZT : 2 <= zlen (elements ((k, m) :: kvs))).
    { rewrite elements_cons, zlen_app, zlen_element. pose proof (zlen_nonneg k). pose proof (zlen_nonneg (payload m)). pose proof (zlen_nonneg (elements kvs)). lia. }
    apply Forall_app in MR as [MR1 MR2].
    assert (ZM : zlen ms <= zlen body).
    { rewrite ZB, LX. pose proof (elements_count (number 0 ms)). rewrite number_zlen in H. change (zlen (@nil value)) with 0. lia. }
    rewrite EQ in *. rewrite BB in *.
    destruct (prefix_steps Hx lx F s1 (fun z => z = l) l [] (le 4 (zlen body + 5)) tl (zlen body + 5) W1 GD O) as (s2 & D2 & f2 & pre2 & Q2 & P2 & F2 & W2 & G2 & O2 & CO2 & C2); auto.
    - clear - MR1 LX. subst lx. change (zlen (@nil value)) with 0. revert MR1. generalize 0 at 1 2. induction ms as [|x ms IH]; intros i MR; cbn; [exact I|].
      cbn [number] in MR. inversion MR as [|? ? [R1 _] R2]; subst. split; [apply R1|]. apply IH; auto. rewrite map_map. cbn [fst]. apply map_id.
    - unfold lx. rewrite zlen_map. change (zlen (@nil value)) with 0. lia.
    - lia.
    - rewrite H4 in Q2. rewrite Q2. destruct f2 as [|f2]; [lia|]. unfold tl. rewrite elements_cons, <- app_assoc.
      assert (NK : no_nul k) by (inversion MR2 as [|? ? [_ X] _]; exact X).
      assert (P4 : zlen pre2 = 4 + zlen (elements (number (zlen (@nil value)) (map fst lx)))) by (rewrite P2, zlen_app; lia).
      rewrite (loop_word f2 s2 l _ pre2 k m) by first [exact (arr_type _ _ _ _ O2)|assumption|lia].
      rewrite (app_assoc (element _)), <- elements_cons.
      assert (L2 : live s2 l) by (apply (G2 l), (own_in _ _ _ _ O2)).
      pose proof (proj2 (ReadOnly_ge l) L5) as RO. unfold Reset. rewrite RO. set (s3 := set_cell s2 l (reset_cell (hp s2 l) TObject)).
      assert (C3 : chg s2 (c_own (hp s1 l)) (fun z => z = l) s3 (fun z => z = l)) by (apply chg_reset; auto; intros z ->; auto).
      assert (HL : hp s3 l = reset_cell (hp s2 l) TObject) by (cbn [set_cell hp s3]; apply upd_same).
      assert (O3 : own (hp s3) l (VObject false []) (fun z => z = l)) by (apply (own_empty _ l KObj); auto; rewrite HL; apply clean_reset).
      assert (OC2 : ok_cache N s2 (c_own (hp s1 l))) by (rewrite <- CO2; apply (arr_cache s2 D2); auto; exact (own_in _ _ _ _ O2)).
      assert (OC3 : ok_cache N s3 (c_own (hp s1 l))) by (apply (chg_cache _ _ _ _ _ C3); auto; intros z ->; auto).
      pose proof (loop_doc E (map (with_tree E) ((k, m) :: kvs)) (S f2) pre2 rest (zlen body + 5) false []) as LD.
      rewrite with_tree_fst, with_tree_kx in LD. cbn [app] in LD.
      assert (BK : bytes_ok (pre2 ++ elements ((k, m) :: kvs) ++ 0 :: rest)).
      { rewrite P2, <- app_assoc. exact B. }
      pose proof (proj2 (hb_ok E G (S f2)) false s3 _ _ l (VObject false []) (pre2 ++ elements ((k, m) :: kvs) ++ 0 :: rest) (zlen body + 5) (zlen pre2)
        (ch_wf _ _ _ _ _ C3) OC3 (chg_good _ _ _ _ _ C3) O3 (ex_intro _ false (ex_intro _ [] eq_refl)) BK) as HB.
      rewrite LD in HB.
      + cbn [loop_res] in HB. destruct HB as (s4 & D4 & Q4 & C4 & O4 & _). exists s4. split; [exact Q4|]. split; [apply C4|].
        apply (proj1 (own_rep_all (hp s4)) _ _ _ O4).
      + discriminate.
      + lia.
      + apply all_reads. eapply Forall_impl; [|exact MR2]. intros a [A _]. exact A.
      + rewrite Forall_map. eapply Forall_impl; [|exact MR2]. intros a [_ A]. exact A.
      + right. reflexivity.
      + clear - Ha. unfold doc, names_apart in *. assert (X : ForallOrdPairs (fun a b => key_match E (fst a) (fst b) = false) ((k, m) :: kvs)).
        { induction (number 0 ms) as [|a r IH]; [exact Ha|]. apply IH. cbn [app] in Ha. inversion Ha. assumption. }
        clear Ha. induction X as [|a r F X IH]; cbn [map]; constructor; auto. rewrite Forall_map. exact F.
      + exact F2. }
  destruct HL as (s' & HL & W' & R'). exists s'. split; [|auto].
  destruct (payload (BDoc doc) ++ rest) as [|b0 b] eqn:BQ; [cbn in FL; lia|].
  assert (FQ : bs_fuel (b0 :: b) = S (pred (bs_fuel (b0 :: b)))) by (unfold bs_fuel; cbn [List.length]; lia).
  rewrite FQ. set (F := pred (bs_fuel (b0 :: b))) in *. clearbody F. cbn [hb_doc]. fold (hb_loop E G). cbn [negb andb].
  destruct (Z.leb_spec (zlen (b0 :: b)) 4); [lia|]. rewrite EQ at 1. unfold le at 1. rewrite le32_app. cbn [bind]. rewrite Z.mod_small by (pose proof (zlen_nonneg body); lia).
  destruct (Z.ltb_spec (zlen (b0 :: b)) (zlen body + 5)) as [X|X].
  { exfalso. rewrite EQ in X. rewrite !zlen_app, zlen_cons in X. pose proof (zlen_nonneg rest). lia. }
  rewrite HL. reflexivity.
Qed.
End Arr.
