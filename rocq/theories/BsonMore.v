(** BSON: the deviations (negative int32, float32, generic binaries, empty documents),
    outcomes of decoding. *)
From Verif Require Import Base Values BsonModel BsonSpec Tactics BsonThms BsonRound BsonEncode.

Section More.
Context (E : env).

(** A one-field document. *)
Lemma one_field u k x m rest : index_parser_ok E -> doc_of E x = Some m ->
  bytes_ok k -> no_nul k -> (u = true \/ x_unescape E k = k) ->
  bwf m -> readable E m -> dates_ok m -> zlen k + zlen (payload m) + 7 < 2 ^ 32 ->
  exists out, Value2Bson E (VObject u [(k, x)]) [] = Ok out /\
    NewValueFromBson E (out ++ rest) = Ok (VObject true [(k, btree E m)]).
Proof.
  intros Hx Hd Hk Hn Hu Hw Hr Hdo Hz.
  assert (Hk' : (if u then k else x_unescape E k) = k) by (destruct u, Hu; auto; discriminate).
  destruct (round_trip_any E [(k, x)] u (BDoc [(k, m)]) rest) as (out & Ho & Hb); auto.
  - cbn [doc_of map fst snd]. rewrite Hd. cbn [option_map opt_all]. rewrite Hk'. reflexivity.
  - cbn [bwf fold_right fst snd]. auto.
  - cbn [readable fold_right snd]. split; [discriminate|]. split; auto. unfold names_apart; repeat constructor.
  - cbn [dates_ok fold_right snd]. auto.
  - rewrite payload_doc, zlen_frame. unfold elements. cbn [map concat]. rewrite app_nil_r, zlen_element. lia.
  - exists out. auto.
Qed.

(** What a field of each deviating kind comes back as. *)
Theorem int_back u k n rest : index_parser_ok E -> bytes_ok k -> no_nul k ->
  (u = true \/ x_unescape E k = k) -> zlen k < 2 ^ 31 -> i64_ok n ->
  exists out, Value2Bson E (VObject u [(k, VInt 0 n)]) [] = Ok out /\
    NewValueFromBson E (out ++ rest) =
      Ok (VObject true [(k, VInt 0 (if (- 2 ^ 31 <=? n) && (n <? 0) then n + 2 ^ 32 else n))]).
Proof.
  intros Hx Hk Hn Hu Hz Hi. unfold i64_ok in Hi.
  assert (Hl : forall m, zlen (le_bytes m n) = Z.of_nat m) by (intros; unfold zlen; rewrite le_bytes_len; auto).
  destruct ((- 2 ^ 31 <=? n) && (n <? 2 ^ 31)) eqn:H32.
  - destruct (one_field u k (VInt 0 n) (BInt32 n) rest) as (out & Ho & Hb); auto.
    + cbn [doc_of]. simpl (0 =? 17). cbv iota. rewrite H32. reflexivity.
    + cbn [bwf]. lia.
    + exact I.
    + exact I.
    + cbn [payload]. unfold le. rewrite Hl. lia.
    + exists out. split; auto. rewrite Hb. cbn [btree]. do 6 f_equal.
      destruct (Z.ltb_spec n 0); [rewrite andb_true_r|rewrite andb_false_r]; zif.
  - destruct (one_field u k (VInt 0 n) (BInt64 n) rest) as (out & Ho & Hb); auto.
    + cbn [doc_of]. simpl (0 =? 17). cbv iota. rewrite H32. reflexivity.
    + exact I.
    + exact I.
    + cbn [payload]. unfold le. rewrite Hl. lia.
    + exists out. split; auto. rewrite Hb. cbn [btree]. do 6 f_equal. zif.
Qed.

Theorem float_back u k raw rest : index_parser_ok E -> bytes_ok k -> no_nul k ->
  (u = true \/ x_unescape E k = k) -> zlen k < 2 ^ 31 -> 0 <= raw < 2 ^ 64 ->
  exists out, Value2Bson E (VObject u [(k, VFloat raw)]) [] = Ok out /\
    NewValueFromBson E (out ++ rest) = Ok (VObject true [(k, VDouble raw)]).
Proof.
  intros Hx Hk Hn Hu Hz Hi.
  apply (one_field u k (VFloat raw) (BDouble raw) rest); auto; try exact I.
  cbn [payload]. unfold le, zlen at 2. rewrite le_bytes_len. lia.
Qed.

Theorem binary_back u k b rest : index_parser_ok E -> bytes_ok k -> no_nul k ->
  (u = true \/ x_unescape E k = k) -> zlen k + zlen b < 2 ^ 31 -> bytes_ok b ->
  exists out, Value2Bson E (VObject u [(k, VBinary 0 b)]) [] = Ok out /\
    NewValueFromBson E (out ++ rest) = Ok (VObject true [(k, VBinary 0 (0 :: b))]).
Proof.
  intros Hx Hk Hn Hu Hz Hi.
  apply (one_field u k (VBinary 0 b) (BBin 0 b) rest); auto; try exact I.
  - cbn [bwf]. split; auto. unfold byte_ok; lia.
  - cbn. lia.
  - cbn [payload]. rewrite zlen_app, zlen_cons. unfold le, zlen at 2. rewrite le_bytes_len.
    unfold zlen in *; lia.
Qed.

(** [n] times written and read. *)
Fixpoint rewrite_n (n : nat) (v : value) : res value :=
  match n with
  | O => Ok v
  | S n' => do w <- rewrite_n n' v; do out <- Value2Bson E w []; NewValueFromBson E out
  end.
Theorem binary_grows n k b : index_parser_ok E -> bytes_ok k -> no_nul k ->
  zlen k + zlen b + Z.of_nat n < 2 ^ 31 -> bytes_ok b ->
  rewrite_n n (VObject true [(k, VBinary 0 b)]) = Ok (VObject true [(k, VBinary 0 (repeat 0 n ++ b))]).
Proof.
  intros Hx Hk Hn Hz Hb. induction n as [|n IH]; [reflexivity|].
  cbn [rewrite_n]. rewrite IH by lia. cbn [bind].
  assert (Hb' : bytes_ok (repeat 0 n ++ b)).
  { apply Forall_app; split; auto. apply Forall_forall. intros x Hin. apply repeat_spec in Hin. subst; unfold byte_ok; lia. }
  destruct (binary_back true k (repeat 0 n ++ b) [] Hx Hk Hn) as (out & Ho & Hd); auto.
  - rewrite zlen_app. unfold zlen at 2. rewrite repeat_length. lia.
  - rewrite Ho. cbn [bind]. rewrite app_nil_r in Hd. rewrite Hd. reflexivity.
Qed.

(** ** Empty documents *)
Theorem empty_top u dst rest : ~ In 0 rest ->
  Value2Bson E (VObject u []) dst = Ok (dst ++ [5; 0; 0; 0; 0]) /\
  NewValueFromBson E ([5; 0; 0; 0; 0] ++ rest) = Err ErrInvalidBSON.
Proof.
  intros Hr. split.
  - rewrite (Value2Bson_conforms E (VObject u []) (BDoc []) dst I eq_refl). reflexivity.
  - unfold NewValueFromBson, bs_fuel. cbn [app length].
    replace (2 * S (S (S (S (S (length rest))))) + 3)%nat with (S (S (2 * length rest + 11)))%nat by lia.
    cbn [bs_doc negb andb].
    assert (Hz : zlen (5 :: 0 :: 0 :: 0 :: 0 :: rest) = 5 + zlen rest) by (rewrite !zlen_cons; lia).
    pose proof (zlen_nonneg rest).
    rewrite Hz. destruct (Z.leb_spec (5 + zlen rest) 4); [lia|].
    change (le32 (5 :: 0 :: 0 :: 0 :: 0 :: rest)) with (Ok 5). cbn [bind].
    destruct (Z.ltb_spec (5 + zlen rest) 5); [lia|].
    cbn [bs_loop Z.leb Z.compare Pos.compare Pos.compare_cont].
    change (skipn (Z.to_nat 4) (5 :: 0 :: 0 :: 0 :: 0 :: rest)) with (0 :: rest). cbv iota.
    assert (Hi : index_byte rest 0 = None).
    { clear - Hr. induction rest as [|x r IH]; simpl; auto. destruct (Z.eqb_spec x 0).
      - exfalso; apply Hr; left; auto.
      - rewrite IH; auto. intros Hin; apply Hr; right; auto. }
    rewrite Hi. reflexivity.
Qed.

(** A nested empty document swallows what follows it up to the next NUL as a key. *)
Theorem empty_nested f bogus r : no_nul bogus -> (2 * length ([5; 0; 0; 0; 0]%Z ++ bogus ++ 0%Z :: r) + 2 <= f)%nat ->
  bs_doc E f false ([5; 0; 0; 0; 0] ++ bogus ++ 0 :: r) (VObject false []) =
  Ok (5, VObject true [(bogus, VNull)]).
Proof.
  intros Hn Hf. destruct f as [|[|[|f]]]; try (cbn [app length] in Hf; lia). cbn [app].
  cbn [bs_doc negb andb].
  set (tl := bogus ++ 0 :: r) in *.
  assert (Hz : zlen (5 :: 0 :: 0 :: 0 :: 0 :: tl) = 5 + zlen tl) by (rewrite !zlen_cons; lia).
  pose proof (zlen_nonneg tl).
  rewrite Hz. destruct (Z.leb_spec (5 + zlen tl) 4); [lia|].
  change (le32 (5 :: 0 :: 0 :: 0 :: 0 :: tl)) with (Ok 5). cbn [bind].
  destruct (Z.ltb_spec (5 + zlen tl) 5); [lia|].
  cbn [bs_loop Z.leb Z.compare Pos.compare Pos.compare_cont].
  change (skipn (Z.to_nat 4) (5 :: 0 :: 0 :: 0 :: 0 :: tl)) with (0 :: tl). cbv iota.
  unfold tl at 1. rewrite index_byte_app by auto. cbn [andb].
  change (0 =? BSON_Array) with false. change (0 =? BSON_EmbeddedDocument) with false. cbv iota.
  change (bson_value E 0 (skipn (S (length bogus)) tl)) with (@Ok (Z * value) (0, VNull)). cbn [bind].
  assert (Hfn : firstn (length bogus) tl = bogus).
  { unfold tl. rewrite firstn_app, firstn_all, Nat.sub_diag. apply app_nil_r. }
  rewrite Hfn.
  replace (4 + 1 + Z.of_nat (length bogus) + 1 + 0 =? 5 - 1) with false by lia. cbn [andb].
  destruct (Z.leb_spec 5 (4 + 1 + Z.of_nat (length bogus) + 1 + 0)); [|lia].
  cbn [store_at set_key_value]. unfold obj_set. rewrite index_none by (auto). reflexivity.
Qed.
Theorem empty_nested_arr f bogus r : no_nul bogus -> x_str2int E bogus (-1) = -1 ->
  (2 * length ([5; 0; 0; 0; 0]%Z ++ bogus ++ 0%Z :: r) + 2 <= f)%nat ->
  bs_doc E f true ([5; 0; 0; 0; 0] ++ bogus ++ 0 :: r) (VArray []) = Err ErrInvalidArrayBsonIndex.
Proof.
  intros Hn Hs Hf. destruct f as [|[|[|f]]]; try (cbn [app length] in Hf; lia). cbn [app].
  cbn [bs_doc negb andb].
  set (tl := bogus ++ 0 :: r) in *.
  assert (Hz : zlen (5 :: 0 :: 0 :: 0 :: 0 :: tl) = 5 + zlen tl) by (rewrite !zlen_cons; lia).
  pose proof (zlen_nonneg tl).
  change (le32 (5 :: 0 :: 0 :: 0 :: 0 :: tl)) with (Ok 5). cbn [bind].
  rewrite Hz. destruct (Z.ltb_spec (5 + zlen tl) 5); [lia|].
  cbn [bs_loop Z.leb Z.compare Pos.compare Pos.compare_cont].
  change (skipn (Z.to_nat 4) (5 :: 0 :: 0 :: 0 :: 0 :: tl)) with (0 :: tl). cbv iota.
  unfold tl at 1. rewrite index_byte_app by auto. cbn [andb].
  assert (Hfn : firstn (length bogus) tl = bogus).
  { unfold tl. rewrite firstn_app, firstn_all, Nat.sub_diag. apply app_nil_r. }
  rewrite Hfn, Hs. reflexivity.
Qed.

(** The key an empty nested object is given: what follows it up to the next NUL. *)
Definition bogus_key (kvs : list (bytes * bval)) : bytes :=
  match kvs with [] => [] | (k, m) :: _ => btag m :: k end.
Lemma btag_pos m : 0 < btag m.
Proof. destruct m; simpl; lia. Qed.

Theorem empty_in_doc kvs1 k kvs2 rest : index_parser_ok E ->
  bwf (BDoc (kvs1 ++ (k, BDoc []) :: kvs2)) ->
  names_apart E (kvs1 ++ (k, BDoc []) :: kvs2) ->
  Forall (fun kv => readable E (snd kv) /\ dates_ok (snd kv)) (kvs1 ++ kvs2) ->
  zlen (payload (BDoc (kvs1 ++ (k, BDoc []) :: kvs2))) < 2 ^ 32 ->
  NewValueFromBson E (payload (BDoc (kvs1 ++ (k, BDoc []) :: kvs2)) ++ rest) =
  Ok (VObject true (map (fun kv => (fst kv, btree E (snd kv))) kvs1 ++
       (k, VObject true [(bogus_key kvs2, VNull)]) ::
       map (fun kv => (fst kv, btree E (snd kv))) kvs2)).
Proof.
  intros Hx Hw Ha Hr Hz.
  set (kxs := map (with_tree E) kvs1 ++
      (k, BDoc [], VObject true [(bogus_key kvs2, VNull)]) :: map (with_tree E) kvs2).
  assert (Hf : map fst kxs = kvs1 ++ (k, BDoc []) :: kvs2).
  { unfold kxs. rewrite map_app. cbn [map fst]. rewrite !with_tree_fst. reflexivity. }
  assert (Hk : map kx kxs = map (fun kv => (fst kv, btree E (snd kv))) kvs1 ++
       (k, VObject true [(bogus_key kvs2, VNull)]) ::
       map (fun kv => (fst kv, btree E (snd kv))) kvs2).
  { unfold kxs. rewrite map_app. cbn [map]. rewrite !with_tree_kx. reflexivity. }
  assert (Hwf : Forall (fun kv => (bytes_ok (fst kv) /\ no_nul (fst kv)) /\ bwf (snd kv)) (kvs1 ++ (k, BDoc []) :: kvs2)).
  { cbn [bwf] in Hw. apply Forall_fold_right. revert Hw.
    generalize (kvs1 ++ (k, BDoc []) :: kvs2). induction l; simpl; tauto. }
  assert (Hin : forall kv, In kv (kvs1 ++ kvs2) -> reads E (snd kv)).
  { intros kv Hkv. assert (Hkv' : In kv (kvs1 ++ (k, BDoc []) :: kvs2)).
    { rewrite in_app_iff in *. destruct Hkv; [left; auto|right; right; auto]. }
    rewrite Forall_forall in Hr, Hwf. destruct (Hr _ Hkv), (Hwf _ Hkv') as [_ Hw'].
    apply reads_all; auto. rewrite payload_doc in Hz. rewrite zlen_frame in Hz.
    apply elements_in in Hkv'. lia. }
  rewrite <- Hf, <- Hk. apply decode_doc_at.
  - unfold kxs. intros Hn. apply app_eq_nil in Hn as [_ Hn]. discriminate.
  - assert (H2 : all_read E (map (with_tree E) kvs2) (0 :: rest)).
    { apply all_reads. apply Forall_forall. intros kv Hkv. apply Hin. rewrite in_app_iff; auto. }
    assert (H1 : reads_at E (BDoc []) (elements (map fst (map (with_tree E) kvs2)) ++ 0 :: rest)
       (VObject true [(bogus_key kvs2, VNull)])).
    { rewrite with_tree_fst. cbn [reads_at]. intros f Hfu.
      change (payload (BDoc [])) with [5; 0; 0; 0; 0] in *. change (zlen [5; 0; 0; 0; 0]) with 5.
      destruct kvs2 as [|[k2 m2] kvs2].
      - unfold bogus_key. change (elements [] ++ 0 :: rest) with ([] ++ 0 :: rest) in *.
        apply empty_nested; auto. intros [].
      - unfold bogus_key. rewrite elements_cons in *. unfold element in *. cbn [fst snd] in *.
        assert (Happ : ((btag m2 :: k2 ++ 0 :: payload m2) ++ elements kvs2) ++ 0 :: rest =
          (btag m2 :: k2) ++ 0 :: (payload m2 ++ elements kvs2 ++ 0 :: rest)).
        { cbn [app]. f_equal. rewrite <- !app_assoc. reflexivity. }
        rewrite Happ in *. apply empty_nested; auto.
        intros [H0|H0]; [pose proof (btag_pos m2); lia|].
        rewrite Forall_forall in Hwf. destruct (Hwf (k2, m2)) as [[_ Hnn] _].
        { rewrite in_app_iff. right; right; left; auto. }
        apply Hnn; auto. }
    unfold kxs. assert (H1' : Forall (fun kv => reads E (snd kv)) kvs1).
    { apply Forall_forall. intros kv Hkv. apply Hin. rewrite in_app_iff; auto. }
    clear - H1' H1 H2. induction H1' as [|[k1 m1] kvs1 Hm _ IH]; simpl; auto.
  - rewrite <- (Forall_map fst (fun kv => no_nul (fst kv))), Hf.
    eapply Forall_impl; [|exact Hwf]. intros a Hfa; apply Hfa.
  - rewrite Hk. unfold names_apart in *. clear - Ha.
    assert (Hg : forall l l' : list (bytes * _), map fst l = map fst l' ->
       ForallOrdPairs (fun a b : bytes * bval => key_match E (fst a) (fst b) = false) l ->
       ForallOrdPairs (fun a b : bytes * value => key_match E (fst a) (fst b) = false) l').
    { induction l as [|a l IH]; intros [|b l'] Hm Hl; try discriminate; constructor.
      - cbn [map] in Hm. injection Hm as Hm1 Hm2. inversion Hl as [|? ? Hfa _]; subst.
        rewrite Hm1 in Hfa. clear - Hfa Hm2. revert l' Hm2. induction Hfa; intros [|c l'] Hm; try discriminate; constructor.
        + simpl in Hm; inversion Hm; congruence.
        + apply IHHfa. simpl in Hm; inversion Hm; auto.
      - simpl in Hm. inversion Hm; subst. inversion Hl; subst. eapply IH; eauto. }
    eapply Hg; [|exact Ha]. rewrite !map_app. cbn [map fst]. rewrite !map_map. reflexivity.
  - rewrite Hf. exact Hz.
Qed.

(** An element list cut at a failing array. *)
Lemma loop_err : forall kvs1 f (pre tl : bytes) docLen u acc k l e,
  docLen > zlen pre + zlen (elements (map fst kvs1)) ->
  all_read E kvs1 (element (k, BArr l) ++ tl) -> Forall (fun p => no_nul (fst (fst p))) kvs1 -> no_nul k ->
  u = true \/ acc = [] ->
  names_apart E (acc ++ map kx kvs1 ++ [(k, VNull)]) ->
  (forall f, (2 * length (payload (BArr l) ++ tl) + 2 <= f)%nat ->
     bs_doc E f true (payload (BArr l) ++ tl) (VArray []) = Err e) ->
  (2 * length (elements (map fst kvs1) ++ element (k, BArr l) ++ tl) + 1 <= f)%nat ->
  docLen - 1 > zlen pre + zlen (elements (map fst kvs1)) ->
  bs_loop E f false (pre ++ elements (map fst kvs1) ++ element (k, BArr l) ++ tl) docLen (zlen pre) (VObject u acc) = Err e.
Proof.
  induction kvs1 as [|[[k1 m1] x1] kvs1 IH]; intros f pre tl docLen u acc k l e Hd Hr Hn Hk Hu Ha He Hf Hd2.
  - cbn [map] in *. unfold elements in Hd, Hf |- *. cbn [map concat app] in *. rewrite zlen_nil in Hd.
    destruct f as [|f]; [lia|]. cbn [bs_loop]. destruct (Z.leb_spec docLen (zlen pre)); [lia|].
    rewrite skipn_zlen_app. unfold element. cbn [fst snd app].
    rewrite <- app_assoc. rewrite <- app_comm_cons. rewrite index_byte_app by auto.
    rewrite firstn_app, firstn_all, Nat.sub_diag, firstn_O, app_nil_r. cbn [andb].
    assert (Hsk : skipn (S (length k)) (k ++ 0 :: payload (BArr l) ++ tl) = payload (BArr l) ++ tl).
    { rewrite skipn_app, skipn_all2 by lia.
      replace (S (length k) - length k)%nat with 1%nat by lia. reflexivity. }
    rewrite Hsk. change (btag (BArr l) =? BSON_Array) with true. cbv iota.
    assert (Hap : Forall (fun kv => key_match E (fst kv) k = false) acc).
    { unfold names_apart in Ha. clear - Ha. induction acc as [|a acc IHa]; constructor.
      - inversion Ha as [|? ? H1 H2]; subst. rewrite Forall_app in H1. destruct H1 as [_ H1].
        inversion H1; subst; auto.
      - apply IHa. inversion Ha; auto. }
    cbn [cell_at]. rewrite index_none by auto. cbn [empty_of].
    rewrite He; [reflexivity|]. revert Hf. unfold element. cbn [fst snd app length].
    rewrite !app_length. cbn [length]. rewrite ?app_length. lia.
  - cbn [map fst] in *. rewrite elements_cons in *. rewrite <- app_assoc in *.
    destruct f as [|f]; [lia|].
    destruct Hr as [Hr1 Hr2]. inversion Hn as [|? ? Hn1 Hn2]; subst. cbn [fst] in Hn1.
    assert (Hap : Forall (fun kv => key_match E (fst kv) k1 = false) acc).
    { unfold names_apart in Ha. clear - Ha. induction acc as [|a acc IHa]; constructor.
      - inversion Ha as [|? ? H1 H2]; subst. rewrite Forall_app in H1. destruct H1 as [_ H1].
        inversion H1; subst; auto.
      - apply IHa. inversion Ha; auto. }
    rewrite zlen_app in *.
    pose proof (zlen_nonneg (elements (map fst kvs1))). pose proof (zlen_element k1 m1).
    pose proof (zlen_nonneg k1). pose proof (zlen_nonneg (payload m1)).
    rewrite (loop_step E f false pre k1 m1 x1); auto; try lia; try discriminate.
    2:{ intros kd. simpl cell_at. rewrite index_none by auto. reflexivity. }
    cbv zeta. simpl store_at. unfold obj_set. rewrite index_none by auto.
    destruct (Z.eqb_spec (zlen pre + zlen (element (k1, m1))) (docLen - 1)); [lia|]. cbn [andb].
    cbv iota beta. rewrite <- (zlen_app pre), (app_assoc pre).
    apply IH; auto.
    + rewrite zlen_app; lia.
    + rewrite <- app_assoc; exact Ha.
    + rewrite app_length in Hf. unfold zlen in *; lia.
    + rewrite zlen_app; lia.
Qed.

Theorem empty_arr_in_doc kvs1 k kvs2 rest : index_parser_ok E ->
  x_str2int E (bogus_key kvs2) (-1) = -1 ->
  bwf (BDoc (kvs1 ++ (k, BArr []) :: kvs2)) ->
  names_apart E (kvs1 ++ (k, BArr []) :: kvs2) ->
  Forall (fun kv => readable E (snd kv) /\ dates_ok (snd kv)) kvs1 ->
  zlen (payload (BDoc (kvs1 ++ (k, BArr []) :: kvs2))) < 2 ^ 32 ->
  NewValueFromBson E (payload (BDoc (kvs1 ++ (k, BArr []) :: kvs2)) ++ rest) = Err ErrInvalidArrayBsonIndex.
Proof.
  intros Hx Hbk Hw Ha Hr Hz.
  assert (Hwf : Forall (fun kv => (bytes_ok (fst kv) /\ no_nul (fst kv)) /\ bwf (snd kv)) (kvs1 ++ (k, BArr []) :: kvs2)).
  { cbn [bwf] in Hw. apply Forall_fold_right. revert Hw.
    generalize (kvs1 ++ (k, BArr []) :: kvs2). induction l; simpl; tauto. }
  rewrite payload_doc in *. pose proof (zlen_frame (elements (kvs1 ++ (k, BArr []) :: kvs2))) as Hzf.
  unfold NewValueFromBson.
  set (body := elements (kvs1 ++ (k, BArr []) :: kvs2)) in *.
  assert (Hbody : body = elements kvs1 ++ element (k, BArr []) ++ elements kvs2).
  { unfold body, elements. rewrite map_app, concat_app. reflexivity. }
  assert (Hfu : exists f, bs_fuel (frame body ++ rest) = S f /\ (2 * length (frame body ++ rest) + 2 <= f)%nat).
  { unfold bs_fuel. eexists; split; [replace (2 * length (frame body ++ rest) + 3)%nat with (S (2 * length (frame body ++ rest) + 2)) by lia; reflexivity|lia]. }
  destruct Hfu as (f & -> & Hf). cbn [bs_doc].
  assert (H4 : zlen (le 4 (zlen body + 5)) = 4) by (unfold zlen, le; rewrite le_bytes_len; reflexivity).
  pose proof (zlen_nonneg body). pose proof (zlen_nonneg rest).
  assert (Hfr : frame body ++ rest = le 4 (zlen body + 5) ++ body ++ 0 :: rest).
  { unfold frame. rewrite <- !app_assoc. reflexivity. }
  assert (Hc : negb false && (zlen (frame body ++ rest) <=? 4) = false).
  { apply andb_false_iff; right. rewrite zlen_app; lia. }
  rewrite Hc. rewrite Hfr. unfold le at 1. rewrite le32_app. cbn [bind].
  rewrite Z.mod_small by lia.
  assert (Hlt : zlen (le 4 (zlen body + 5) ++ body ++ 0 :: rest) <? zlen body + 5 = false).
  { rewrite <- Hfr, zlen_app. lia. }
  rewrite Hlt.
  assert (Hsplit : body ++ 0 :: rest = elements (map fst (map (with_tree E) kvs1)) ++ element (k, BArr []) ++ (elements kvs2 ++ 0 :: rest)).
  { rewrite with_tree_fst, Hbody, <- !app_assoc. reflexivity. }
  assert (Hzl : zlen body = zlen (elements kvs1) + zlen (element (k, BArr [])) + zlen (elements kvs2)).
  { rewrite Hbody, !zlen_app. lia. }
  pose proof (zlen_element k (BArr [])) as Hze. change (zlen (payload (BArr []))) with 5 in Hze.
  pose proof (zlen_nonneg k). pose proof (zlen_nonneg (elements kvs2)).
  match goal with |- (do _ <- (do _ <- ?X; _); _) = _ => enough (HX : X = Err ErrInvalidArrayBsonIndex) by (rewrite HX; reflexivity) end.
  rewrite Hsplit.
  pose proof (loop_err (map (with_tree E) kvs1) f (le 4 (zlen body + 5)) (elements kvs2 ++ 0 :: rest)
    (zlen body + 5) false [] k [] ErrInvalidArrayBsonIndex) as HL.
  rewrite H4 in HL. apply HL; clear HL.
  - rewrite with_tree_fst. lia.
  - apply all_reads. rewrite Forall_forall in *. intros kv Hkv. destruct (Hr _ Hkv).
    assert (Hin : In kv (kvs1 ++ (k, BArr []) :: kvs2)) by (rewrite in_app_iff; auto).
    apply reads_all; auto; [apply Hwf; auto|].
    apply elements_in in Hin. fold body in Hin. lia.
  - rewrite Forall_map. rewrite Forall_app in Hwf. destruct Hwf as [Hwf _].
    eapply Forall_impl; [|exact Hwf]. intros a Hfa; apply Hfa.
  - rewrite Forall_forall in Hwf. apply (Hwf (k, BArr [])). rewrite in_app_iff. right; left; auto.
  - auto.
  - cbn [app]. rewrite with_tree_kx. unfold names_apart in *. clear - Ha.
    induction kvs1 as [|[k1 m1] kvs1 IH]; cbn [map app fst snd] in *; [repeat constructor|].
    inversion Ha as [|? ? H1 H2]; subst. constructor; [|apply IH, H2].
    rewrite Forall_app in *. destruct H1 as [H1 H3]. split.
    + rewrite Forall_map. exact H1.
    + inversion H3; subst. constructor; auto.
  - intros f' Hf'. change (payload (BArr [])) with [5; 0; 0; 0; 0] in *.
    destruct kvs2 as [|[k2 m2] kvs2].
    + unfold bogus_key in Hbk. change (elements [] ++ 0 :: rest) with ([] ++ 0 :: rest) in *.
      apply empty_nested_arr; auto. intros [].
    + unfold bogus_key in Hbk. rewrite elements_cons in *. unfold element in *. cbn [fst snd] in *.
      assert (Happ : ((btag m2 :: k2 ++ 0 :: payload m2) ++ elements kvs2) ++ 0 :: rest =
        (btag m2 :: k2) ++ 0 :: (payload m2 ++ elements kvs2 ++ 0 :: rest)).
      { cbn [app]. f_equal. rewrite <- !app_assoc. reflexivity. }
      rewrite Happ in *. apply empty_nested_arr; auto.
      intros [H0'|H0']; [pose proof (btag_pos m2); lia|].
      rewrite Forall_forall in Hwf. destruct (Hwf (k2, m2)) as [[_ Hnn] _].
      { rewrite in_app_iff. right; right; left; auto. }
      apply Hnn; auto.
  - rewrite <- Hsplit. rewrite Hfr in Hf. rewrite app_length in Hf. unfold zlen in H4. lia.
  - rewrite with_tree_fst. lia.
Qed.

(** Decoding yields an object. *)
Lemma bs_object : forall f,
  (forall arr b u kvs n v, bs_doc E f arr b (VObject u kvs) = Ok (n, v) -> exists u' kvs', v = VObject u' kvs') /\
  (forall arr b dl i u kvs v, bs_loop E f arr b dl i (VObject u kvs) = Ok v -> exists u' kvs', v = VObject u' kvs').
Proof.
  induction f as [|f [IHd IHl]]; [split; intros; discriminate|]. split.
  - intros arr b u kvs n v H. cbn [bs_doc] in H. destruct (negb arr && _); [discriminate|].
    apply bind_ok in H as [dl [_ H]]. destruct (_ <? _); [discriminate|].
    apply bind_ok in H as [w [Hw H]]. apply ok_pair in H as [_ <-]. eapply IHl; eauto.
  - intros arr b dl i u kvs v H. cbn [bs_loop] in H. destruct (_ <=? _).
    { apply ok_inj in H; subst; eauto. }
    destruct (skipn _ b); [discriminate|]. destruct (index_byte _ 0); [|discriminate].
    match type of H with (if ?c then _ else _) = _ => destruct c; [discriminate|] end.
    apply bind_ok in H as [[n' x] [_ H]].
    cbn [store_at set_key_value] in H. destruct (obj_set E u kvs _ x) as [u' kvs'].
    match type of H with (if ?c then _ else _) = _ => destruct c end.
    + apply ok_inj in H; subst; eauto.
    + eapply IHl; eauto.
Qed.
Theorem bson_object b v : NewValueFromBson E b = Ok v -> exists u kvs, v = VObject u kvs.
Proof.
  unfold NewValueFromBson. intros H. apply bind_ok in H as [[n w] [H Hw]]. apply ok_inj in Hw; subst.
  eapply (proj1 (bs_object _)); eauto.
Qed.

(** ** Exact real values of float bit patterns (scaled by 2^1074), finite patterns only. *)
End More.

Definition f64_scaled (bits : Z) : option Z :=
  let sg := if bits <? 2 ^ 63 then 1 else -1 in
  let e := bits / 2 ^ 52 mod 2 ^ 11 in
  let m := bits mod 2 ^ 52 in
  if e =? 2047 then None
  else Some (sg * (if e =? 0 then m else (2 ^ 52 + m) * 2 ^ (e - 1))).
Definition f32_scaled (bits : Z) : option Z :=
  let sg := if bits <? 2 ^ 31 then 1 else -1 in
  let e := bits / 2 ^ 23 mod 2 ^ 8 in
  let m := bits mod 2 ^ 23 in
  if e =? 255 then None
  else Some (sg * (if e =? 0 then m else (2 ^ 23 + m) * 2 ^ (e - 1)) * 2 ^ 925).

Theorem float_value_lost raw : 0 <= raw < 2 ^ 32 ->
  f64_scaled raw = f32_scaled raw -> raw = 0.
Proof.
  intros Hr H. unfold f64_scaled in H.
  assert (He : raw / 2 ^ 52 mod 2 ^ 11 = 0) by (rewrite Z.div_small by lia; reflexivity).
  assert (Hm : raw mod 2 ^ 52 = raw) by (apply Z.mod_small; lia).
  rewrite He, Hm in H. simpl (0 =? _) in H. cbv iota in H.
  destruct (Z.ltb_spec raw (2 ^ 63)); [|lia].
  unfold f32_scaled in H. destruct (_ =? 255); [discriminate|].
  set (k := (if raw <? 2 ^ 31 then 1 else -1) * _) in H.
  assert (Hs : forall a b : Z, Some a = Some b -> a = b) by congruence.
  apply Hs in H. rewrite Z.mul_1_l in H. clear Hs. rename H into Hk.
  clearbody k. assert (Hb : 2 ^ 32 < 2 ^ 925) by reflexivity.
  generalize dependent (2 ^ 925). intros P Hk Hb.
  assert (k = 0 \/ k <= -1 \/ 1 <= k) as [->|[Hk1|Hk1]] by lia; [lia| |]; nia.
Qed.
