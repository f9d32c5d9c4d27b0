(** The BSON encoder writes the specified bytes; the decoder reads them back. *)
From Verif Require Import Base Values BsonModel BsonSpec Tactics MsgPackSpec MsgPackDecode MsgPackThms BsonThms.

Section BvalInd.
  Variable P : bval -> Prop.
  Hypothesis Hd : forall n, P (BDouble n).
  Hypothesis Hs : forall s, P (BStr s).
  Hypothesis Hdoc : forall kvs, Forall (fun kv => P (snd kv)) kvs -> P (BDoc kvs).
  Hypothesis Harr : forall l, Forall P l -> P (BArr l).
  Hypothesis Hb : forall s b, P (BBin s b).
  Hypothesis Ho : forall b, P (BOid b).
  Hypothesis Hbo : forall b, P (BBool b).
  Hypothesis Hda : forall n, P (BDate n).
  Hypothesis Hn : P BNull.
  Hypothesis Hi : forall n, P (BInt32 n).
  Hypothesis Ht : forall n, P (BTs n).
  Hypothesis Hl : forall n, P (BInt64 n).
  Hypothesis Hde : forall b, P (BDec b).
  Fixpoint bval_ind' (m : bval) : P m :=
    match m with
    | BDouble n => Hd n | BStr s => Hs s
    | BDoc kvs => Hdoc kvs ((fix go (l : list (bytes * bval)) : Forall (fun kv => P (snd kv)) l :=
        match l with [] => Forall_nil _ | kv :: l' => Forall_cons kv (bval_ind' (snd kv)) (go l') end) kvs)
    | BArr l => Harr l ((fix go (l : list bval) : Forall P l :=
        match l with [] => Forall_nil _ | x :: l' => Forall_cons x (bval_ind' x) (go l') end) l)
    | BBin s b => Hb s b | BOid b => Ho b | BBool b => Hbo b | BDate n => Hda n | BNull => Hn
    | BInt32 n => Hi n | BTs n => Ht n | BInt64 n => Hl n | BDec b => Hde b
    end.
End BvalInd.

Lemma payload_doc kvs : payload (BDoc kvs) = frame (elements kvs).
Proof. reflexivity. Qed.
Lemma payload_arr l : payload (BArr l) = frame (elements (number 0 l)).
Proof.
  cbn [payload]. unfold elements. do 2 f_equal.
  match goal with |- ?g 0 l = _ =>
    enough (H : forall i, g i l = map element (number i l)) by apply H end.
  induction l as [|x l IH]; intros i; auto.
  cbn [number map]. rewrite IH. reflexivity.
Qed.
Lemma elements_cons kv l : elements (kv :: l) = element kv ++ elements l.
Proof. reflexivity. Qed.
Lemma zlen_frame b : zlen (frame b) = zlen b + 5.
Proof.
  unfold frame, le. rewrite !zlen_app. unfold zlen at 1; rewrite le_bytes_len.
  unfold zlen at 2; simpl length. lia.
Qed.
Lemma zlen_element k m : zlen (element (k, m)) = 2 + zlen k + zlen (payload m).
Proof. unfold element; simpl fst; simpl snd. rewrite zlen_cons, zlen_app, zlen_cons; lia. Qed.

Section Dec.
Context (E : env).

(** ** One value *)
Definition scalar (m : bval) : Prop := match m with BDoc _ | BArr _ => False | _ => True end.

Lemma instant_ns ms : i64_ok (ms * 1000000) ->
  bson_instant (ms mod 2 ^ 64) = instant ms.
Proof.
  unfold bson_instant, instant, i64_ok, to_i64; intros H.
  assert (Hm : (ms mod 2 ^ 64 * 1000000) mod 2 ^ 64 = (ms * 1000000) mod 2 ^ 64)
    by (rewrite Z.mul_mod_idemp_l by lia; reflexivity).
  rewrite Hm.
  assert (Hn : (if (ms * 1000000) mod 2 ^ 64 <? 2 ^ 63 then (ms * 1000000) mod 2 ^ 64
                else (ms * 1000000) mod 2 ^ 64 - 2 ^ 64) = ms * 1000000).
  { destruct (Z.ltb_spec ((ms * 1000000) mod 2 ^ 64) (2 ^ 63)); lia. }
  rewrite Hn. replace 1000000000 with (1000 * 1000000) by lia.
  rewrite Z.div_mul_cancel_r by lia. rewrite Z.mul_mod_distr_r by lia. reflexivity.
Qed.

Lemma bson_value_payload m r : scalar m -> bwf m -> readable E m -> dates_ok m ->
  zlen (payload m) < 2 ^ 32 ->
  bson_value E (btag m) (payload m ++ r) = Ok (zlen (payload m), btree E m).
Proof.
  intros Hs Hw Hr Hd Hz; destruct m; try destruct Hs; cbn [btag payload btree bwf readable dates_ok] in *; unfold le in *.
  - unfold bson_value; simpl (_ =? _). cbv iota. rewrite le64_app. cbn [bind].
    rewrite Z.mod_small by lia. unfold zlen; rewrite le_bytes_len; reflexivity.
  - unfold bson_value; simpl (0x02 =? _). cbv iota.
    rewrite <- !app_assoc, le32_app. cbn [bind].
    assert (H4 : zlen (le_bytes 4 (zlen s + 1)) = 4) by (unfold zlen; rewrite le_bytes_len; reflexivity).
    rewrite !zlen_app, H4 in *. rewrite zlen_cons, zlen_nil in *.
    pose proof (zlen_nonneg s). rewrite Z.mod_small by lia.
    destruct (Z.leb_spec (zlen s + 1) 0); [lia|].
    rewrite app_assoc, take_app by (rewrite app_length, le_bytes_len; unfold zlen; lia).
    cbn [bind]. rewrite skipn_app, skipn_all2 by (rewrite le_bytes_len; lia).
    rewrite le_bytes_len; simpl skipn. cbn [app]. f_equal; f_equal; lia.
  - destruct Hw as [Hsub Hb]. unfold bson_value; simpl (0x05 =? _). cbv iota.
    rewrite <- app_assoc, le32_app. cbn [bind].
    assert (H4 : zlen (le_bytes 4 (zlen b)) = 4) by (unfold zlen; rewrite le_bytes_len; reflexivity).
    rewrite !zlen_app, H4, zlen_cons in *. pose proof (zlen_nonneg b).
    rewrite Z.mod_small by lia.
    rewrite skipn_app, skipn_all2 by (rewrite le_bytes_len; lia).
    rewrite le_bytes_len; simpl skipn. cbn [app].
    destruct (Z.eqb_spec sub 2); [contradiction|].
    change (sub :: b ++ r) with ((sub :: b) ++ r). rewrite (take_app (Z.to_nat (zlen b + 1)) (sub :: b) r) by (simpl length; unfold zlen; lia).
    cbn [bind]. f_equal. f_equal; lia.
  - destruct Hw as [_ Hw]. unfold bson_value; simpl (0x07 =? _). cbv iota.
    rewrite take_app by (unfold zlen in Hw; lia). cbn [bind]. rewrite Hw; reflexivity.
  - destruct b; reflexivity.
  - unfold bson_value; simpl (0x09 =? _). cbv iota. rewrite le64_app; cbn [bind].
    rewrite instant_ns by auto. unfold zlen; rewrite le_bytes_len; reflexivity.
  - reflexivity.
  - unfold bson_value; simpl (0x10 =? _). cbv iota. rewrite le32_app; cbn [bind].
    unfold zlen; rewrite le_bytes_len; reflexivity.
  - unfold bson_value; simpl (0x11 =? _). cbv iota. rewrite le64_app; cbn [bind].
    unfold zlen; rewrite le_bytes_len.
    unfold to_i64. rewrite Z.mod_mod by lia. rewrite Z.mod_small by lia. reflexivity.
  - unfold bson_value; simpl (0x12 =? _). cbv iota. rewrite le64_app; cbn [bind].
    unfold zlen; rewrite le_bytes_len.
    assert (Hn : to_i64 (n mod 2 ^ 64) = n).
    { unfold to_i64, i64_ok in *. rewrite Z.mod_mod by lia.
      destruct (Z.ltb_spec (n mod 2 ^ 64) (2 ^ 63)); lia. }
    rewrite Hn; reflexivity.
  - destruct Hw as [_ Hw]. unfold bson_value; simpl (0x13 =? _). cbv iota.
    rewrite take_app by (unfold zlen in Hw; lia). cbn [bind]. rewrite Hw; reflexivity.
Qed.

(** ** The element loop *)
(** [m], followed by [tl] in the buffer, is read as [x]; [reads]: whatever follows, as its tree. *)
Definition reads_at (m : bval) (tl : bytes) (x : value) : Prop :=
  match m with
  | BDoc _ => forall f, (2 * length (payload m ++ tl) + 2 <= f)%nat ->
      bs_doc E f false (payload m ++ tl) (VObject false []) = Ok (zlen (payload m), x)
  | BArr _ => forall f, (2 * length (payload m ++ tl) + 2 <= f)%nat ->
      bs_doc E f true (payload m ++ tl) (VArray []) = Ok (zlen (payload m), x)
  | _ => bson_value E (btag m) (payload m ++ tl) = Ok (zlen (payload m), x)
  end.
Definition reads (m : bval) : Prop := forall tl, reads_at m tl (btree E m).
Fixpoint all_read (l : list (bytes * bval * value)) (tl : bytes) : Prop :=
  match l with
  | [] => True
  | (_, m, x) :: r => reads_at m (elements (map fst r) ++ tl) x /\ all_read r tl
  end.

Lemma loop_step f arr pre k m x tl docLen doc :
  reads_at m tl x -> no_nul k -> zlen pre < docLen ->
  (forall kd, cell_at E arr doc k (if arr then x_str2int E k (-1) else 0) kd = empty_of kd) ->
  (arr = true -> x_str2int E k (-1) <> -1) ->
  (2 * length (element (k, m) ++ tl) <= f)%nat ->
  bs_loop E (S f) arr (pre ++ element (k, m) ++ tl) docLen (zlen pre) doc =
  (let doc' := store_at E doc k (if arr then x_str2int E k (-1) else 0) x in
   let idx' := zlen pre + zlen (element (k, m)) in
   if (idx' =? docLen - 1) && match tl with 0 :: _ => true | _ => false end
   then Ok doc' else bs_loop E f arr (pre ++ element (k, m) ++ tl) docLen idx' doc').
Proof.
  intros Hm Hk Hd Hc Ha Hf. cbn [bs_loop].
  destruct (Z.leb_spec docLen (zlen pre)); [lia|].
  rewrite skipn_zlen_app. rewrite zlen_element.
  unfold element at 1; cbn [app fst snd].
  rewrite <- app_assoc. rewrite <- app_comm_cons. rewrite index_byte_app by auto.
  rewrite firstn_app, firstn_all, Nat.sub_diag. rewrite firstn_O, app_nil_r.
  set (ai := if arr then x_str2int E k (-1) else 0).
  assert (Hb : arr && (ai =? -1) = false).
  { destruct arr; auto. simpl. unfold ai. specialize (Ha eq_refl). lia. }
  rewrite Hb.
  assert (Hsk : skipn (S (length k)) (k ++ 0 :: payload m ++ tl) = payload m ++ tl).
  { rewrite skipn_app, skipn_all2 by lia.
    replace (S (length k) - length k)%nat with 1%nat by lia. reflexivity. }
  rewrite Hsk.
  assert (Hl : (2 * length (payload m ++ tl) + 2 <= f)%nat).
  { revert Hf; unfold element; simpl fst; simpl snd. simpl length.
    rewrite !app_length. simpl length. rewrite ?app_length. simpl length. lia. }
  match goal with |- bind ?y _ = _ => assert (Hx : y = Ok (zlen (payload m), x)) end.
  { destruct m; cbn [btag reads_at] in *; try (simpl (_ =? BSON_Array); simpl (_ =? BSON_EmbeddedDocument); cbv iota);
      try (rewrite Hc; apply Hm; exact Hl); apply Hm. }
  rewrite Hx. cbn [bind].
  replace (zlen pre + 1 + Z.of_nat (length k) + 1 + zlen (payload m))
    with (zlen pre + (2 + zlen k + zlen (payload m))) by (unfold zlen; lia).
  assert (Hn : nth_error (pre ++ element (k, m) ++ tl)
     (Z.to_nat (zlen pre + (2 + zlen k + zlen (payload m)))) = nth_error tl 0).
  { rewrite <- zlen_element, app_assoc, nth_error_app2.
    - f_equal. rewrite app_length. unfold zlen; lia.
    - rewrite app_length; unfold zlen; lia. }
  rewrite Hn. destruct tl as [|y tl]; reflexivity.
Qed.

Lemma find_none {A} (acc : list (bytes * A)) k :
  Forall (fun kv => key_match E (fst kv) k = false) acc -> find_key E acc k = None.
Proof.
  induction 1 as [|[k0 x] acc H _ IH]; simpl; auto. simpl in H; rewrite H, IH; reflexivity.
Qed.
Lemma index_none {A} u (acc : list (bytes * A)) k : u = true \/ acc = [] ->
  Forall (fun kv => key_match E (fst kv) k = false) acc ->
  index_by_name E u acc k = (None, (true, acc)).
Proof.
  intros [-> | ->] H; unfold index_by_name; simpl.
  - rewrite find_none by auto; reflexivity.
  - destruct u; simpl; auto. destruct (no_backslash k); reflexivity.
Qed.

Definition kx (p : bytes * bval * value) : bytes * value := (fst (fst p), snd p).
Lemma loop_doc : forall kvs f (pre rest : bytes) docLen u acc,
  kvs <> [] ->
  docLen = zlen pre + zlen (elements (map fst kvs)) + 1 ->
  all_read kvs (0 :: rest) -> Forall (fun p => no_nul (fst (fst p))) kvs ->
  u = true \/ acc = [] ->
  names_apart E (acc ++ map kx kvs) ->
  (2 * length (elements (map fst kvs) ++ 0%Z :: rest) + 1 <= f)%nat ->
  bs_loop E f false (pre ++ elements (map fst kvs) ++ 0 :: rest) docLen (zlen pre) (VObject u acc) =
  Ok (VObject true (acc ++ map kx kvs)).
Proof.
  induction kvs as [|[[k m] x] kvs IH]; intros f pre rest docLen u acc Hne Hd Hr Hn Hu Ha Hf; [contradiction|].
  clear Hne. destruct f as [|f]; [lia|].
  cbn [map fst] in *. rewrite elements_cons in *. rewrite <- app_assoc in *.
  destruct Hr as [Hr1 Hr2]. inversion Hn as [|? ? Hn1 Hn2]; subst. simpl in Hn1.
  assert (Hap : Forall (fun kv => key_match E (fst kv) k = false) acc).
  { unfold names_apart in Ha. clear - Ha. induction acc as [|a acc IHa]; constructor.
    - inversion Ha as [|? ? H1 H2]; subst. rewrite Forall_app in H1. destruct H1 as [_ H1].
      inversion H1; subst; auto.
    - apply IHa. inversion Ha; auto. }
  rewrite zlen_app.
  pose proof (zlen_nonneg (elements (map fst kvs))). pose proof (zlen_element k m).
  pose proof (zlen_nonneg k). pose proof (zlen_nonneg (payload m)).
  rewrite (loop_step f false pre k m x); auto; try lia; try discriminate.
  2:{ intros kd. simpl cell_at. rewrite index_none by auto. reflexivity. }
  cbv zeta. simpl store_at. unfold obj_set. rewrite index_none by auto.
  destruct kvs as [|kv kvs].
  - unfold elements. cbn [map concat app]. rewrite zlen_nil.
    replace (zlen pre + zlen (element (k, m)) =? zlen pre + (zlen (element (k, m)) + 0) + 1 - 1)
      with true by lia. reflexivity.
  - match goal with |- (if ?c then _ else _) = _ => assert (Hc : c = false) end.
    { apply andb_false_iff; left. cbn [map]. rewrite elements_cons, zlen_app.
      destruct kv as [[k' m'] x']. cbn [fst]. pose proof (zlen_element k' m').
      pose proof (zlen_nonneg k'). pose proof (zlen_nonneg (payload m')).
      pose proof (zlen_nonneg (elements (map fst kvs))). lia. }
    rewrite Hc. cbv iota beta. rewrite <- (zlen_app pre), (app_assoc pre).
    rewrite IH; auto; try discriminate.
    + rewrite <- app_assoc; reflexivity.
    + rewrite !zlen_app; lia.
    + rewrite <- app_assoc; exact Ha.
    + rewrite app_length in Hf. unfold zlen in *; lia.
Qed.

Lemma fmt_int_no_nul i : 0 <= i -> no_nul (fmt_int i).
Proof.
  intros Hi. unfold no_nul, fmt_int. destruct (Z.ltb_spec i 0); [lia|].
  unfold dec_nat. assert (Hg : forall f n acc, 0 <= n -> ~ In 0 acc -> ~ In 0 (dec_digits f n acc)).
  { clear. induction f; intros n acc Hn Ha; cbn [dec_digits]; auto.
    destruct (Z.ltb_spec n 10); [|apply IHf; [lia|]];
    (intros [H0|H0]; [|contradiction]); lia. }
  apply Hg; auto.
Qed.

Definition numbered (i : Z) (l : list (bval * value)) : list (bytes * bval * value) :=
  map (fun p => (fst p, fst (snd p), snd (snd p))) (number i l).
Lemma numbered_fst i l : map fst (numbered i l) = number i (map fst l).
Proof. revert i; induction l as [|[m x] l IH]; intros i; auto. unfold numbered in *. cbn [number map fst snd]. rewrite IH. reflexivity. Qed.

Lemma loop_arr : index_parser_ok E -> forall l f (pre rest : bytes) docLen acc,
  l <> [] ->
  docLen = zlen pre + zlen (elements (number (zlen acc) (map fst l))) + 1 ->
  zlen acc + zlen l < 2 ^ 63 ->
  all_read (numbered (zlen acc) l) (0 :: rest) ->
  (2 * length (elements (number (zlen acc) (map fst l)) ++ 0%Z :: rest) + 1 <= f)%nat ->
  bs_loop E f true (pre ++ elements (number (zlen acc) (map fst l)) ++ 0 :: rest) docLen (zlen pre) (VArray acc) =
  Ok (VArray (acc ++ map snd l)).
Proof.
  intros Hx. induction l as [|[m x] l IH]; intros f pre rest docLen acc Hne Hd Hl Hr Hf; [contradiction|].
  clear Hne. destruct f as [|f]; [lia|].
  unfold numbered in Hr. cbn [number map fst snd all_read] in *. rewrite elements_cons in *. rewrite <- app_assoc in *.
  destruct Hr as [Hr1 Hr2]. fold (numbered (zlen acc + 1) l) in *. rewrite numbered_fst in Hr1.
  rewrite zlen_cons in Hl. pose proof (zlen_nonneg acc). pose proof (zlen_nonneg l).
  assert (Hk : no_nul (fmt_int (zlen acc))) by (apply fmt_int_no_nul; auto).
  set (k := fmt_int (zlen acc)) in *.
  assert (Hi : x_str2int E k (-1) = zlen acc) by (apply Hx; lia).
  subst docLen. rewrite zlen_app.
  pose proof (zlen_nonneg (elements (number (zlen acc + 1) (map fst l)))). pose proof (zlen_element k m).
  pose proof (zlen_nonneg k). pose proof (zlen_nonneg (payload m)).
  rewrite (loop_step f true pre k m x); auto; try lia.
  2:{ intros kd. simpl cell_at. rewrite Hi.
      destruct (Z.ltb_spec (zlen acc) (zlen acc)); [lia|].
      rewrite andb_false_r. reflexivity. }
  cbv zeta. rewrite Hi. simpl store_at.
  assert (Hst : (0 <=? zlen acc) && (zlen acc <? zlen acc) = false) by lia.
  rewrite Hst.
  destruct l as [|[m2 x2] l].
  - unfold elements. cbn [number map concat app]. rewrite zlen_nil.
    replace (zlen pre + zlen (element (k, m)) =? zlen pre + (zlen (element (k, m)) + 0) + 1 - 1)
      with true by lia. reflexivity.
  - match goal with |- (if ?c then _ else _) = _ => assert (Hc : c = false) end.
    { apply andb_false_iff; left. cbn [number map fst]. rewrite elements_cons, zlen_app.
      set (k' := fmt_int _). pose proof (zlen_element k' m2).
      pose proof (zlen_nonneg k'). pose proof (zlen_nonneg (payload m2)).
      match goal with |- context [zlen (elements ?l)] => pose proof (zlen_nonneg (elements l)) end. lia. }
    rewrite Hc. cbv iota beta. rewrite <- (zlen_app pre), (app_assoc pre).
    assert (Hz : zlen acc + 1 = zlen (acc ++ [x])) by (rewrite zlen_app; reflexivity).
    rewrite Hz in *.
    rewrite IH; auto; try discriminate.
    + rewrite <- app_assoc; reflexivity.
    + rewrite !zlen_app; lia.
    + rewrite <- Hz; lia.
    + rewrite app_length in Hf. unfold zlen in *; lia.
Qed.

Lemma number_zlen l i : zlen (number i l : list (bytes * bval)) = zlen l.
Proof. revert i; induction l; intros i; simpl; auto. rewrite !zlen_cons, IHl; reflexivity. Qed.
Lemma elements_count l : zlen l <= zlen (elements l).
Proof.
  induction l as [|[k m] l IH]; [reflexivity|]. rewrite elements_cons, zlen_app, zlen_cons, zlen_element.
  pose proof (zlen_nonneg k). pose proof (zlen_nonneg (payload m)). lia.
Qed.
Lemma elements_in kvs kv : In kv kvs -> zlen (payload (snd kv)) <= zlen (elements kvs).
Proof.
  induction kvs as [|[k m] l IH]; [intros []|]. rewrite elements_cons, zlen_app, zlen_element.
  pose proof (zlen_nonneg k). pose proof (zlen_nonneg (payload m)). pose proof (zlen_nonneg (elements l)).
  intros [<-|H']; cbn [snd]; [lia|]. specialize (IH H'). lia.
Qed.
Lemma number_in (l : list bval) i m : In m l -> exists k, In (k, m) (number i l).
Proof.
  revert i; induction l as [|x l IH]; intros i; [intros []|]. intros [<-|H]; simpl; eauto.
  destruct (IH (i + 1) H) as [k Hk]; eauto.
Qed.

Lemma bs_doc_frame f arr body r acc v :
  zlen (frame body) < 2 ^ 32 ->
  (1 <= f)%nat ->
  bs_loop E f arr (le 4 (zlen body + 5) ++ body ++ 0 :: r)
    (zlen (le 4 (zlen body + 5)) + zlen body + 1) (zlen (le 4 (zlen body + 5))) acc = Ok v ->
  bs_doc E (S f) arr (frame body ++ r) acc = Ok (zlen (frame body), v).
Proof.
  intros Hz Hf Hl. cbn [bs_doc].
  assert (H4 : zlen (le 4 (zlen body + 5)) = 4) by (unfold zlen, le; rewrite le_bytes_len; reflexivity).
  pose proof (zlen_nonneg body). pose proof (zlen_nonneg r).
  assert (Hfr : frame body ++ r = le 4 (zlen body + 5) ++ body ++ 0 :: r).
  { unfold frame. rewrite <- !app_assoc. reflexivity. }
  pose proof (zlen_frame body) as Hzf.
  assert (Hc : negb arr && (zlen (frame body ++ r) <=? 4) = false).
  { apply andb_false_iff; right. rewrite zlen_app; lia. }
  rewrite Hc. rewrite Hfr. unfold le at 1. rewrite le32_app. cbn [bind].
  rewrite Z.mod_small by lia.
  assert (Hlt : zlen (le 4 (zlen body + 5) ++ body ++ 0 :: r) <? zlen body + 5 = false).
  { rewrite <- Hfr, zlen_app. lia. }
  rewrite Hlt. rewrite H4 in Hl.
  replace (zlen body + 5) with (4 + zlen body + 1) at 2 by lia.
  rewrite Hl. cbn [bind]. rewrite Hzf. reflexivity.
Qed.

Definition with_tree (kv : bytes * bval) : bytes * bval * value := (kv, btree E (snd kv)).
Lemma all_reads kvs tl : Forall (fun kv => reads (snd kv)) kvs -> all_read (map with_tree kvs) tl.
Proof. induction 1 as [|[k m] kvs H _ IH]; simpl; auto. Qed.
Lemma with_tree_fst kvs : map fst (map with_tree kvs) = kvs.
Proof. rewrite map_map; simpl. apply map_id. Qed.
Lemma with_tree_kx kvs : map kx (map with_tree kvs) = map (fun kv => (fst kv, btree E (snd kv))) kvs.
Proof. rewrite map_map; reflexivity. Qed.

(** Reading a document whose elements are read one by one. *)
Theorem reads_doc kxs tl : kxs <> [] -> all_read kxs (0 :: tl) ->
  Forall (fun p => no_nul (fst (fst p))) kxs -> names_apart E (map kx kxs) ->
  zlen (payload (BDoc (map fst kxs))) < 2 ^ 32 ->
  reads_at (BDoc (map fst kxs)) tl (VObject true (map kx kxs)).
Proof.
  intros Hne Hall Hnn Hap Hz. cbn [reads_at]. intros f Hf. rewrite payload_doc in *.
  pose proof (zlen_frame (elements (map fst kxs))).
  destruct f as [|f]; [lia|].
  apply bs_doc_frame; auto.
  { rewrite app_length in Hf. lia. }
  rewrite loop_doc; auto.
  rewrite !app_length in *. unfold zlen in *. simpl length. lia.
Qed.
Theorem reads_arr lx tl : index_parser_ok E -> lx <> [] -> all_read (numbered 0 lx) (0 :: tl) ->
  zlen (payload (BArr (map fst lx))) < 2 ^ 32 ->
  reads_at (BArr (map fst lx)) tl (VArray (map snd lx)).
Proof.
  intros Hx Hne Hall Hz. cbn [reads_at]. intros f Hf. rewrite payload_arr in *.
  pose proof (zlen_frame (elements (number 0 (map fst lx)))).
  destruct f as [|f]; [lia|].
  apply bs_doc_frame; auto.
  { rewrite app_length in Hf. lia. }
  assert (Hc : zlen lx <= zlen (elements (number 0 (map fst lx)))).
  { rewrite <- (zlen_map fst lx). rewrite <- (number_zlen (map fst lx) 0). apply elements_count. }
  match goal with |- bs_loop _ _ _ _ ?dl _ _ = _ =>
    pose proof (loop_arr Hx lx f (le 4 (zlen (elements (number 0 (map fst lx))) + 5)) tl dl []) as Hla end.
  change (zlen (@nil value)) with 0 in Hla. apply Hla; auto; try lia.
  rewrite !app_length in *. unfold zlen in *. simpl length. lia.
Qed.

Theorem reads_all : index_parser_ok E -> forall m,
  bwf m -> readable E m -> dates_ok m -> zlen (payload m) < 2 ^ 32 -> reads m.
Proof.
  intros Hx. induction m using bval_ind'; intros Hw Hr Hd Hz;
    try (intros ?r; apply bson_value_payload; auto; exact I).
  - (* documents *)
    pose proof Hz as Hz0. rewrite payload_doc in Hz. pose proof (zlen_frame (elements kvs)).
    cbn [bwf readable dates_ok] in *. destruct Hr as [Hne [Ha Hr]].
    assert (Hall : Forall (fun kv => reads (snd kv)) kvs).
    { assert (Hin : forall kv, In kv kvs -> zlen (payload (snd kv)) < 2 ^ 32).
      { intros kv Hkv. apply elements_in in Hkv. lia. }
      clear - H Hw Hr Hd Hin. induction kvs as [|kv kvs IH]; constructor.
      - inversion H; subst. simpl in Hw, Hr, Hd. apply H2; try tauto. apply Hin; left; auto.
      - inversion H; subst. simpl in Hw, Hr, Hd. apply IH; try tauto. intros kv' Hk; apply Hin; right; auto. }
    assert (Hnn : Forall (fun kv : bytes * bval => no_nul (fst kv)) kvs).
    { clear - Hw. induction kvs; constructor; simpl in Hw; [tauto|apply IHkvs; tauto]. }
    assert (Hap : names_apart E (map (fun kv => (fst kv, btree E (snd kv))) kvs)).
    { unfold names_apart in *. clear - Ha. induction Ha; simpl; constructor; auto.
      rewrite Forall_map; exact H. }
    intros tl. pose proof (reads_doc (map with_tree kvs) tl) as HR.
    rewrite with_tree_fst, with_tree_kx in HR. apply HR; auto.
    + intros Hn; apply Hne. destruct kvs; [auto|discriminate].
    + apply all_reads, Hall.
    + rewrite Forall_map. exact Hnn.
  - (* arrays *)
    pose proof Hz as Hz0. rewrite payload_arr in Hz. pose proof (zlen_frame (elements (number 0 l))).
    cbn [bwf readable dates_ok] in *. destruct Hr as [Hne Hr].
    assert (Hall : Forall reads l).
    { assert (Hin : forall m, In m l -> zlen (payload m) < 2 ^ 32).
      { intros m Hm. destruct (number_in l 0 m Hm) as [k Hk]. apply elements_in in Hk. simpl in Hk. lia. }
      clear - H Hw Hr Hd Hin. induction l as [|m l IH]; constructor.
      - inversion H; subst. simpl in Hw, Hr, Hd. apply H2; try tauto. apply Hin; left; auto.
      - inversion H; subst. simpl in Hw, Hr, Hd. apply IH; try tauto. intros kv' Hk; apply Hin; right; auto. }
    intros tl. pose proof (reads_arr (map (fun m => (m, btree E m)) l) tl Hx) as HR.
    rewrite !map_map in HR. cbn [fst snd] in HR. rewrite map_id in HR. apply HR; auto.
    + intros Hn; apply Hne. destruct l; [auto|discriminate].
    + clear - Hall. generalize 0 at 1. induction Hall as [|m l Hm _ IH]; intros i; simpl; auto.
      split; [apply Hm|]. apply IH.
Qed.

Theorem decode_doc_at kxs r : kxs <> [] -> all_read kxs (0 :: r) ->
  Forall (fun p => no_nul (fst (fst p))) kxs -> names_apart E (map kx kxs) ->
  zlen (payload (BDoc (map fst kxs))) < 2 ^ 32 ->
  NewValueFromBson E (payload (BDoc (map fst kxs)) ++ r) = Ok (VObject true (map kx kxs)).
Proof.
  intros H1 H2 H3 H4 H5. pose proof (reads_doc kxs r H1 H2 H3 H4 H5) as H.
  unfold NewValueFromBson. cbn [reads_at] in H. rewrite H by (unfold bs_fuel; lia). reflexivity.
Qed.

Theorem decode_doc kvs r : index_parser_ok E ->
  bwf (BDoc kvs) -> readable E (BDoc kvs) -> dates_ok (BDoc kvs) -> zlen (payload (BDoc kvs)) < 2 ^ 32 ->
  NewValueFromBson E (payload (BDoc kvs) ++ r) = Ok (btree E (BDoc kvs)).
Proof.
  intros Hx Hw Hr Hd Hz. unfold NewValueFromBson.
  pose proof (reads_all Hx _ Hw Hr Hd Hz r) as H. cbn [reads_at] in H.
  rewrite H by (unfold bs_fuel; lia). reflexivity.
Qed.
End Dec.
