(** Every specification-conforming encoding is decoded to the value it stands for. *)
From Verif Require Import Base Values MsgPackModel MsgPackSpec Tactics MsgPackFuel.

(** ** Numbers *)
Lemma list_len1 {A} (l : list A) : length l = 1%nat -> exists a, l = [a].
Proof. destruct l as [|a [|]]; simpl; try lia; eauto. Qed.
Lemma list_len2 {A} (l : list A) : length l = 2%nat -> exists a b, l = [a; b].
Proof. destruct l as [|a [|b [|]]]; simpl; try lia; eauto. Qed.
Lemma list_len4 {A} (l : list A) : length l = 4%nat -> exists a b c d, l = [a; b; c; d].
Proof. destruct l as [|a [|b [|c [|d [|]]]]]; simpl; try lia; eauto 6. Qed.
Lemma list_len8 {A} (l : list A) : length l = 8%nat ->
  exists a b c d e f g h, l = [a; b; c; d; e; f; g; h].
Proof.
  intros H. destruct l as [|a [|b [|c [|d l]]]]; simpl in H; try lia.
  destruct (list_len4 l) as (e & f & g & h & ->); [lia|]. eauto 10.
Qed.

Lemma be_num1 p n : be_num 1 p n -> p = [n] /\ 0 <= n < 2 ^ 8.
Proof.
  intros (Hl & Hb & Hn). apply list_len1 in Hl as [a ->].
  cbv [big_endian fold_left] in Hn. inversion Hb; subst. unfold byte_ok in *.
  split; [f_equal; lia|lia].
Qed.
Lemma be_num2 p n : be_num 2 p n ->
  0 <= n < 2 ^ 16 /\ forall r, parseUint16 (p ++ r) = Ok (n, r).
Proof.
  intros (Hl & Hb & Hn). apply list_len2 in Hl as (a & b & ->).
  cbv [big_endian fold_left] in Hn. unfold bytes_ok, byte_ok in Hb.
  repeat match goal with H : Forall _ (_ :: _) |- _ => inversion H; clear H; subst end.
  split; [lia|]. intros r. simpl app. unfold parseUint16. do 2 f_equal; lia.
Qed.
Lemma be_num4 p n : be_num 4 p n ->
  0 <= n < 2 ^ 32 /\ forall r, parseUint32 (p ++ r) = Ok (n, r).
Proof.
  intros (Hl & Hb & Hn). apply list_len4 in Hl as (a & b & c & d & ->).
  cbv [big_endian fold_left] in Hn. unfold bytes_ok, byte_ok in Hb.
  repeat match goal with H : Forall _ (_ :: _) |- _ => inversion H; clear H; subst end.
  split; [lia|]. intros r. simpl app. unfold parseUint32. do 2 f_equal; lia.
Qed.
Lemma be_num8 p n : be_num 8 p n ->
  0 <= n < 2 ^ 64 /\ forall r, parseUint64 (p ++ r) = Ok (n, r).
Proof.
  intros (Hl & Hb & Hn). apply list_len8 in Hl as (a & b & c & d & e & f & g & h & ->).
  cbv [big_endian fold_left] in Hn. unfold bytes_ok, byte_ok in Hb.
  repeat match goal with H : Forall _ (_ :: _) |- _ => inversion H; clear H; subst end.
  split; [lia|]. intros r. simpl app. unfold parseUint64. do 2 f_equal; lia.
Qed.

(** ** Maps *)
Section Decode.
Context (E : env).

Lemma set_val_upsert {A} (kvs : list (bytes * A)) name x :
  match find_key E kvs name with
  | Some i => set_val i x kvs = upsert (key_match E) kvs name x
  | None => kvs ++ [(name, x)] = upsert (key_match E) kvs name x
  end.
Proof.
  induction kvs as [|[k y] r IH]; simpl; auto.
  destruct (key_match E k name) eqn:Hm; simpl; auto.
  destruct (find_key E r name) eqn:Hf; simpl; [|rewrite IH; reflexivity].
  unfold set_val in *; simpl. rewrite <- IH. destruct (nth_error r n) as [[]|]; reflexivity.
Qed.

Lemma obj_set_true {A} (kvs : list (bytes * A)) name x :
  obj_set E true kvs name x = (true, upsert (key_match E) kvs name x).
Proof.
  unfold obj_set, index_by_name; simpl. pose proof (set_val_upsert kvs name x) as H.
  destruct (find_key E kvs name); rewrite H; reflexivity.
Qed.
Lemma obj_set_empty {A} name (x : A) : obj_set E false [] name x = (true, [(name, x)]).
Proof.
  unfold obj_set, index_by_name; simpl. destruct (no_backslash name); reflexivity.
Qed.

(** ** Headers *)
Ltac cod := unfold IsStr, IsArray, IsMap, IsFixedStr, IsFixedNum, IsBin, IsExt, between,
  CodeNil, CodeFalse, CodeTrue, CodeBin8, CodeBin16, CodeBin32, CodeExt8, CodeExt16, CodeExt32,
  CodeFloat, CodeDouble, CodeUint8, CodeUint16, CodeUint32, CodeUint64, CodeInt8, CodeInt16,
  CodeInt32, CodeInt64, CodeFixExt1, CodeFixExt2, CodeFixExt4, CodeFixExt8, CodeFixExt16,
  CodeStr8, CodeStr16, CodeStr32, CodeArray16, CodeArray32, CodeMap16, CodeMap32 in *.
Ltac tt x := replace x with true by (cod; lia).
Ltac ff x := replace x with false by (cod; lia).

Lemma str_hdr_parse n h : str_hdr n h ->
  exists c h', h = c :: h' /\ IsStr c = true /\ 0 <= n < 2 ^ 32 /\
    forall r, parseLen c (h' ++ r) = Ok (n, r).
Proof.
  intros H; inversion H; subst.
  - exists (0xa0 + n), []; repeat split; try lia; [cod; lia|].
    intros r. unfold parseLen. tt (IsFixedStr (160 + n)). cbn [app]. do 2 f_equal; lia.
  - apply be_num1 in H0 as [-> Hn]. exists 0xd9, [n]; repeat split; try lia.
  - apply be_num2 in H0 as [Hn Hp]. exists 0xda, p; repeat split; try lia. intros r; apply Hp.
  - apply be_num4 in H0 as [Hn Hp]. exists 0xdb, p; repeat split; try lia. intros r; apply Hp.
Qed.
Lemma str_parse s h : str_hdr (zlen s) h ->
  exists c h', h = c :: h' /\ IsStr c = true /\
    forall r, parseStr c (h' ++ s ++ r) = Ok (s, r).
Proof.
  intros H. apply str_hdr_parse in H as (c & h' & -> & Hc & Hn & Hp).
  exists c, h'; repeat split; auto. intros r. unfold parseStr. rewrite Hp.
  destruct (zlen s <=? 0) eqn:Hz.
  - assert (s = []) as -> by (apply zlen_zero; pose proof (zlen_nonneg s); lia). reflexivity.
  - replace (zlen s <=? zlen (s ++ r)) with true
      by (rewrite zlen_app; pose proof (zlen_nonneg r); lia).
    rewrite firstn_zlen_app, skipn_zlen_app. reflexivity.
Qed.
Lemma bin_hdr_parse n h : bin_hdr n h ->
  exists c h', h = c :: h' /\ IsBin c = true /\
    forall r, parseLen c (h' ++ r) = Ok (n, r).
Proof.
  intros H; inversion H; subst.
  - apply be_num1 in H0 as [-> Hn]. exists 0xc4, [n]; repeat split; try lia.
  - apply be_num2 in H0 as [Hn Hp]. exists 0xc5, p; repeat split; try lia. intros r; apply Hp.
  - apply be_num4 in H0 as [Hn Hp]. exists 0xc6, p; repeat split; try lia. intros r; apply Hp.
Qed.
Lemma arr_hdr_parse n h : arr_hdr n h ->
  exists c h', h = c :: h' /\ IsArray c = true /\ IsStr c = false /\
    forall r, parseArrLen c (h' ++ r) = Ok (n, r).
Proof.
  intros H; inversion H; subst.
  - exists (0x90 + n), []; repeat split; try (cod; lia).
    intros r. unfold parseArrLen. tt (between 144 159 (144 + n)). cbn [app]. do 2 f_equal; lia.
  - apply be_num2 in H0 as [Hn Hp]. exists 0xdc, p; repeat split; try lia. intros r; apply Hp.
  - apply be_num4 in H0 as [Hn Hp]. exists 0xdd, p; repeat split; try lia. intros r; apply Hp.
Qed.
Lemma map_hdr_parse n h : map_hdr n h ->
  exists c h', h = c :: h' /\ IsMap c = true /\ IsArray c = false /\ IsStr c = false /\
    forall r, parseMapLen c (h' ++ r) = Ok (n, r).
Proof.
  intros H; inversion H; subst.
  - exists (0x80 + n), []; repeat split; try (cod; lia).
    intros r. unfold parseMapLen. tt (between 128 143 (128 + n)). cbn [app]. do 2 f_equal; lia.
  - apply be_num2 in H0 as [Hn Hp]. exists 0xde, p; repeat split; try lia.
    intros r. unfold parseMapLen; simpl. rewrite Hp. reflexivity.
  - apply be_num4 in H0 as [Hn Hp]. exists 0xdf, p; repeat split; try lia.
    intros r. unfold parseMapLen; simpl. rewrite Hp. reflexivity.
Qed.
Lemma ext_hdr_parse n h : ext_hdr n h ->
  exists c h', h = c :: h' /\ IsExt c = true /\ 0 <= n /\
    forall r, parseExtLen c (h' ++ r) = Ok (n, r).
Proof.
  intros H; inversion H; subst; try (eexists _, []; repeat split; lia).
  - apply be_num1 in H0 as [-> Hn]. exists 0xc7, [n]; repeat split; try lia.
  - apply be_num2 in H0 as [Hn Hp]. exists 0xc8, p; repeat split; try lia. intros r; apply Hp.
  - apply be_num4 in H0 as [Hn Hp]. exists 0xc9, p; repeat split; try lia. intros r; apply Hp.
Qed.

Lemma ext_other c : IsExt c = true ->
  IsStr c = false /\ IsArray c = false /\ IsMap c = false /\
  forall b, parseScalar E c b = parseExt E c b.
Proof.
  intros H. assert (Hc : between CodeFixExt1 CodeFixExt16 c || between CodeExt8 CodeExt32 c = true)
    by exact H. clear H.
  repeat split; try (cod; lia).
  intros b. unfold parseScalar.
  ff (IsStr c). ff (IsFixedNum c). ff (c =? CodeUint8). ff (c =? CodeInt8). ff (c =? CodeUint16).
  ff (c =? CodeInt16). ff (c =? CodeUint32). ff (c =? CodeInt32).
  ff ((c =? CodeInt64) || (c =? CodeUint64)). ff (c =? CodeFloat). ff (c =? CodeDouble).
  ff (c =? CodeTrue). ff (c =? CodeFalse). ff (c =? CodeNil). ff (IsBin c). tt (IsExt c).
  reflexivity.
Qed.

Lemma dec_scalar c b : IsStr c = true \/ (IsArray c = false /\ IsMap c = false) ->
  dec E (c :: b) = parseScalar E c b.
Proof.
  intros H. rewrite dec_eq. destruct (IsStr c); auto.
  destruct H as [H|[-> ->]]; [discriminate|reflexivity].
Qed.

(** ** Integers *)
Lemma ok_int x y (r : bytes) : x = y -> Ok (VInt 0 x, r) = Ok (VInt 0 y, r).
Proof. intros ->; reflexivity. Qed.

Lemma int_wire_dec n b r : int_wire n b -> dec E (b ++ r) = Ok (VInt 0 (wrap64 n), r).
Proof.
  unfold wrap64.
  intros H; inversion H; subst; cbn [app].
  - rewrite dec_scalar by (right; split; cod; lia). unfold parseScalar.
    ff (IsStr n). tt (IsFixedNum n). unfold s8. apply ok_int; zif.
  - rewrite dec_scalar by (right; split; cod; lia). unfold parseScalar.
    ff (IsStr (256 + n)). tt (IsFixedNum (256 + n)). unfold s8. apply ok_int; zif.
  - apply be_num1 in H0 as [-> Hn]. rewrite dec_scalar by (right; split; reflexivity).
    simpl. apply ok_int; zif.
  - apply be_num2 in H0 as [Hn Hp]. rewrite dec_scalar by (right; split; reflexivity).
    unfold parseScalar; cbn -[Z.pow parseUint16]. rewrite Hp. simpl. apply ok_int; zif.
  - apply be_num4 in H0 as [Hn Hp]. rewrite dec_scalar by (right; split; reflexivity).
    unfold parseScalar; cbn -[Z.pow parseUint32]. rewrite Hp. simpl. apply ok_int; zif.
  - apply be_num8 in H0 as [Hn Hp]. rewrite dec_scalar by (right; split; reflexivity).
    unfold parseScalar; cbn -[Z.pow parseUint64]. rewrite Hp. reflexivity.
  - apply be_num1 in H0 as [-> Hn]. rewrite dec_scalar by (right; split; reflexivity).
    unfold parseScalar; cbn -[Z.pow]. unfold s8, signed. apply ok_int; simpl Z.of_nat; zif.
  - apply be_num2 in H0 as [Hn Hp]. rewrite dec_scalar by (right; split; reflexivity).
    unfold parseScalar; cbn -[Z.pow parseUint16 signed]. rewrite Hp. cbn -[Z.pow signed].
    unfold s16, signed. apply ok_int; simpl Z.of_nat; zif.
  - apply be_num4 in H0 as [Hn Hp]. rewrite dec_scalar by (right; split; reflexivity).
    unfold parseScalar; cbn -[Z.pow parseUint32 signed]. rewrite Hp. cbn -[Z.pow signed].
    unfold s32, signed. apply ok_int; simpl Z.of_nat; zif.
  - apply be_num8 in H0 as [Hn Hp]. rewrite dec_scalar by (right; split; reflexivity).
    unfold parseScalar; cbn -[Z.pow parseUint64 signed]. rewrite Hp. cbn -[Z.pow signed].
    unfold s64, signed. apply ok_int; simpl Z.of_nat; zif.
Qed.

(** ** Extensions and timestamps *)
Lemma zlen_firstn_ok {A} (b r : list A) k : 0 <= k <= zlen b ->
  firstn (Z.to_nat k) (b ++ r) = firstn (Z.to_nat k) b /\
  skipn (Z.to_nat k) (b ++ r) = skipn (Z.to_nat k) b ++ r.
Proof.
  intros H. unfold zlen in H. rewrite firstn_app, skipn_app.
  replace (Z.to_nat k - length b)%nat with 0%nat by lia. simpl. rewrite app_nil_r. auto.
Qed.

Lemma ext_dec t p h r : t <> 255 -> ext_hdr (zlen p) h ->
  dec E ((h ++ t :: p) ++ r) = Ok (VExBinary 0 (t :: p), r).
Proof.
  intros Ht H. apply ext_hdr_parse in H as (c & h' & -> & Hc & Hn & Hp).
  apply ext_other in Hc as (H1 & H2 & H3 & H4).
  rewrite <- app_assoc. cbn [app]. rewrite dec_scalar by auto. rewrite H4.
  unfold parseExt. rewrite Hp. cbn [bind].
  change (t :: p ++ r) with ((t :: p) ++ r).
  rewrite zlen_app, zlen_cons.
  replace (1 + zlen p + zlen r <? zlen p) with false by (pose proof (zlen_nonneg r); lia).
  replace (1 + zlen p + zlen r <? zlen p + 1) with false by (pose proof (zlen_nonneg r); lia).
  unfold IsTime. replace (t =? 255) with false by lia. cbn [andb].
  replace (zlen p + 1) with (zlen (t :: p)) by (rewrite zlen_cons; lia).
  rewrite firstn_zlen_app, skipn_zlen_app. reflexivity.
Qed.

Lemma ok_time s n s' n' (t t' : bytes) : s = s' -> n = n' -> t = t' ->
  Ok (VDateTime (x_delphi E (s, n)), t) = Ok (VDateTime (x_delphi E (s', n')), t').
Proof. intros -> -> ->; reflexivity. Qed.

Lemma time_dec sec nsec b r : time_wire sec nsec b ->
  dec E (b ++ r) = Ok (VDateTime (x_delphi E (sec, nsec)), r).
Proof.
  intros H; inversion H; subst.
  - apply be_num4 in H1 as [Hn Hp]. pose proof Hp as Hp0. cbn [app].
    rewrite dec_scalar by (right; split; reflexivity).
    rewrite (proj2 (proj2 (proj2 (ext_other 0xd6 eq_refl)))).
    unfold parseExt. change (parseExtLen 214 (255 :: p ++ r)) with (@Ok (Z * bytes) (4, 255 :: p ++ r)).
    cbn [bind]. rewrite zlen_cons, zlen_app.
    assert (Hl : zlen p = 4). 
    { specialize (Hp []). rewrite app_nil_r in Hp. apply parseUint32_len in Hp. unfold zlen; simpl in Hp; lia. }
    rewrite Hl. replace (1 + (4 + zlen r) <? 4) with false by (pose proof (zlen_nonneg r); lia).
    replace (1 + (4 + zlen r) <? 4 + 1) with false by (pose proof (zlen_nonneg r); lia).
    change (IsTime 214 255) with true. cbn [Z.eqb].
    change (214 =? CodeFixExt4) with true. cbv iota.
    unfold be32. rewrite Hp0. cbn [bind].
    unfold time_unix. apply ok_time.
    + rewrite Z.add_0_r. reflexivity.
    + reflexivity.
    + replace (Z.to_nat (4 + 1)) with (S (length p)) by (unfold zlen in Hl; lia).
      cbn [skipn]. rewrite skipn_app, skipn_all, Nat.sub_diag. reflexivity.
  - apply be_num8 in H2 as [Hn Hp]. pose proof Hp as Hp0. cbn [app].
    rewrite dec_scalar by (right; split; reflexivity).
    rewrite (proj2 (proj2 (proj2 (ext_other 0xd7 eq_refl)))).
    unfold parseExt. change (parseExtLen 215 (255 :: p ++ r)) with (@Ok (Z * bytes) (8, 255 :: p ++ r)).
    cbn [bind]. rewrite zlen_cons, zlen_app.
    assert (Hl : zlen p = 8). 
    { specialize (Hp []). rewrite app_nil_r in Hp. apply parseUint64_len in Hp. unfold zlen; simpl in Hp; lia. }
    rewrite Hl. replace (1 + (8 + zlen r) <? 8) with false by (pose proof (zlen_nonneg r); lia).
    replace (1 + (8 + zlen r) <? 8 + 1) with false by (pose proof (zlen_nonneg r); lia).
    change (IsTime 215 255) with true. change (215 =? CodeFixExt4) with false.
    change (215 =? CodeFixExt8) with true. cbv iota.
    unfold be64. rewrite Hp0. cbn [bind].
    unfold time_unix. apply ok_time.
    + assert ((nsec * 2 ^ 34 + sec) mod 2 ^ 34 = sec) as -> by lia.
      assert ((nsec * 2 ^ 34 + sec) / 2 ^ 34 = nsec) as -> by lia. lia.
    + assert ((nsec * 2 ^ 34 + sec) / 2 ^ 34 = nsec) as -> by lia. apply Z.mod_small; lia.
    + replace (Z.to_nat (8 + 1)) with (S (length p)) by (unfold zlen in Hl; lia).
      cbn [skipn]. rewrite skipn_app, skipn_all, Nat.sub_diag. reflexivity.
  - apply be_num4 in H1 as [Hn Hp]. apply be_num8 in H2 as [Hm Hq].
    pose proof Hp as Hp0. pose proof Hq as Hq0. cbn [app].
    rewrite dec_scalar by (right; split; reflexivity).
    rewrite (proj2 (proj2 (proj2 (ext_other 0xc7 eq_refl)))).
    unfold parseExt.
    change (parseExtLen 199 (12 :: 255 :: (p ++ q) ++ r)) with (@Ok (Z * bytes) (12, 255 :: (p ++ q) ++ r)).
    cbn [bind]. rewrite zlen_cons, !zlen_app.
    assert (Hl : zlen p = 4). 
    { specialize (Hp []). rewrite app_nil_r in Hp. apply parseUint32_len in Hp. unfold zlen; simpl in Hp; lia. }
    assert (Hl' : zlen q = 8). 
    { specialize (Hq []). rewrite app_nil_r in Hq. apply parseUint64_len in Hq. unfold zlen; simpl in Hq; lia. }
    rewrite Hl, Hl'.
    replace (1 + (4 + 8 + zlen r) <? 12) with false by (pose proof (zlen_nonneg r); lia).
    replace (1 + (4 + 8 + zlen r) <? 12 + 1) with false by (pose proof (zlen_nonneg r); lia).
    change (IsTime 199 255) with true. change (199 =? CodeFixExt4) with false.
    change (199 =? CodeFixExt8) with false. cbv iota.
    unfold be32. rewrite <- app_assoc, Hp0. cbn [bind].
    replace (4 + 8 + zlen r <? 4) with false by (pose proof (zlen_nonneg r); lia).
    replace (skipn 4 (p ++ q ++ r)) with (q ++ r)
      by (pose proof (skipn_zlen_app p (q ++ r)) as Hsk; rewrite Hl in Hsk; symmetry; exact Hsk).
    unfold be64. rewrite Hq0. cbn [bind].
    unfold time_unix. apply ok_time.
    + rewrite Z.div_small by lia. unfold s64, signed. simpl Z.of_nat. zif.
    + apply Z.mod_small; lia.
    + replace (Z.to_nat (12 + 1)) with (S (length (p ++ q)))
        by (rewrite app_length; unfold zlen in Hl, Hl'; lia).
      cbn [skipn]. rewrite app_assoc, skipn_app, skipn_all, Nat.sub_diag. reflexivity.
Qed.

(** ** Everything *)
Definition kv_tree (kv : bytes * mval) := (fst kv, tree_of E (snd kv)).

Lemma tree_of_map kvs : tree_of E (MMap kvs) =
  match kvs with [] => VObject false [] | _ => VObject true (upserts (key_match E) (map kv_tree kvs) []) end.
Proof. destruct kvs; reflexivity. Qed.

Lemma wire_dec_all :
  (forall m b, wire m b -> ext_clean m -> forall r, dec E (b ++ r) = Ok (tree_of E m, r)) /\
  (forall l b, wires l b -> ext_clean (MArr l) -> forall r acc,
      decarr E (zlen l) (b ++ r) acc = Ok (VArray (acc ++ map (tree_of E) l), r)) /\
  (forall l b, kwires l b -> ext_clean (MMap l) -> forall r,
      (forall acc, decmap E (zlen l) (b ++ r) (VObject true acc)
        = Ok (VObject true (upserts (key_match E) (map kv_tree l) acc), r)) /\
      (l <> [] ->
        (exists c b', b = c :: b' /\ IsStr c = true) /\
        decmap E (zlen l) (b ++ r) (VObject false [])
        = Ok (VObject true (upserts (key_match E) (map kv_tree l) []), r))).
Proof.
  apply wire_mutind.
  - intros _ r; rewrite dec_eq; reflexivity.
  - intros _ r; rewrite dec_eq; reflexivity.
  - intros _ r; rewrite dec_eq; reflexivity.
  - intros n b H _ r. apply int_wire_dec; auto.
  - intros n p H _ r. apply be_num4 in H as [Hn Hp]. cbn [app].
    rewrite dec_scalar by (right; split; reflexivity).
    unfold parseScalar; cbn -[parseUint32]. rewrite Hp. reflexivity.
  - intros n p H _ r. apply be_num8 in H as [Hn Hp]. cbn [app].
    rewrite dec_scalar by (right; split; reflexivity).
    unfold parseScalar; cbn -[parseUint64]. rewrite Hp. reflexivity.
  - intros s h Hs Hh _ r. apply str_parse in Hh as (c & h' & -> & Hc & Hp).
    rewrite <- app_assoc. cbn [app]. rewrite dec_scalar by auto.
    unfold parseScalar. rewrite Hc, Hp. reflexivity.
  - intros s h Hs Hh _ r. apply bin_hdr_parse in Hh as (c & h' & -> & Hc & Hp).
    assert (Hb : between CodeBin8 CodeBin32 c = true) by exact Hc.
    rewrite <- app_assoc. cbn [app]. rewrite dec_scalar by (right; split; cod; lia).
    unfold parseScalar.
    ff (IsStr c). ff (IsFixedNum c). ff (c =? CodeUint8). ff (c =? CodeInt8). ff (c =? CodeUint16).
    ff (c =? CodeInt16). ff (c =? CodeUint32). ff (c =? CodeInt32).
    ff ((c =? CodeInt64) || (c =? CodeUint64)). ff (c =? CodeFloat). ff (c =? CodeDouble).
    ff (c =? CodeTrue). ff (c =? CodeFalse). ff (c =? CodeNil). rewrite Hc, Hp. cbn [bind].
    replace (zlen s <=? zlen (s ++ r)) with true by (rewrite zlen_app; pose proof (zlen_nonneg r); lia).
    rewrite firstn_zlen_app, skipn_zlen_app. reflexivity.
  - intros t s h Ht Hs Hh Hc r. apply ext_dec; auto.
  - intros sec nsec b H _ r. apply time_dec; auto.
  - intros l h b Hh Hw IH Hc r. specialize (IH Hc).
    apply arr_hdr_parse in Hh as (c & h' & -> & Ha & Hs & Hp).
    rewrite <- app_assoc. cbn [app]. rewrite dec_eq, Hs, Ha, Hp. cbn [bind].
    destruct l as [|m l].
    + inversion Hw; subst. reflexivity.
    + replace (zlen (m :: l) =? 0) with false by (rewrite zlen_cons; pose proof (zlen_nonneg l); lia).
      rewrite IH. reflexivity.
  - intros l h b Hh Hw IH Hc r. specialize (IH Hc r). destruct IH as [_ IH].
    apply map_hdr_parse in Hh as (c & h' & -> & Hm & Ha & Hs & Hp).
    rewrite <- app_assoc. cbn [app]. rewrite dec_eq, Hs, Ha, Hm, Hp. cbn [bind].
    rewrite tree_of_map. destruct l as [|m l].
    + inversion Hw; subst. reflexivity.
    + replace (zlen (m :: l) =? 0) with false by (rewrite zlen_cons; pose proof (zlen_nonneg l); lia).
      destruct IH as [(c' & b' & -> & Hc') IH]; [discriminate|].
      cbn [app] in IH |- *. rewrite Hc'. exact IH.
  - intros _ r acc. rewrite decarr_eq. simpl. rewrite app_nil_r. reflexivity.
  - intros m l b c Hm IHm Hl IHl [Hcm Hcl] r acc. rewrite decarr_eq.
    rewrite zlen_cons. replace (1 + zlen l <=? 0) with false by (pose proof (zlen_nonneg l); lia).
    rewrite <- app_assoc, IHm by auto. cbn [bind].
    replace (1 + zlen l - 1) with (zlen l) by lia. rewrite IHl by auto.
    rewrite <- app_assoc. reflexivity.
  - intros _ r. split; [|intros H; congruence]. intros acc. rewrite decmap_eq. reflexivity.
  - intros k m l h b c Hk Hh Hm IHm Hl IHl [Hcm Hcl] r.
    apply str_parse in Hh as (cc & h' & -> & Hc & Hp).
    assert (Hgen : forall acc, decmap E (zlen ((k, m) :: l)) (((cc :: h') ++ k ++ b ++ c) ++ r) acc
       = decmap E (zlen l) (c ++ r) (set_key_value E acc k (tree_of E m))).
    { intros acc. rewrite decmap_eq, zlen_cons.
      replace (1 + zlen l <=? 0) with false by (pose proof (zlen_nonneg l); lia).
      rewrite <- !app_assoc. cbn [app]. rewrite Hp. cbn [bind]. cbn [snd] in Hcm. rewrite IHm by auto.
      cbn [bind]. f_equal. lia. }
    split; [|intros _; split].
    + intros acc. rewrite Hgen. cbn [set_key_value]. rewrite obj_set_true.
      destruct (IHl Hcl r) as [IH _]. rewrite IH. reflexivity.
    + exists cc, (h' ++ k ++ b ++ c); auto.
    + rewrite Hgen. cbn [set_key_value]. rewrite obj_set_empty.
      destruct (IHl Hcl r) as [IH _]. rewrite IH. reflexivity.
Qed.

Theorem wire_dec m b r : wire m b -> ext_clean m -> mp_decode E (b ++ r) = Ok (tree_of E m, r).
Proof. intros; apply wire_dec_all; auto. Qed.
End Decode.
