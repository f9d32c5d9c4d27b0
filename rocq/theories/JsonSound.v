(** Everything the JSON parser accepts is in the dialect; termination, absence of panics,
    and which errors can be printed. *)
From Coq Require Import String.
From Verif Require Import Base Values Tactics JsonModel JsonSpec JsonLex JsonParse.

(** ** Soundness *)
Definition nul_not (b : bytes) : Prop := b <> bs "nul".

Lemma follows_plain t b rest : ~ is_number t -> nul_not b -> follows t b rest.
Proof. intros H1 H2. split; intros H; [destruct (H1 H)|destruct (H2 H)]. Qed.

Lemma parseJsonNum_sound E b v rest : b <> [] -> hd 0 b <> 110 ->
  parseJsonNum E b = Ok (v, rest) ->
  (v = VNilP /\ rest = [] /\ Forall number_byte b) \/
  exists t bt, b = bt ++ rest /\ d_scalar t bt /\ v = tree_of E t /\ follows t bt rest.
Proof.
  intros Hne Hhd. unfold parseJsonNum. destruct (num_end b) as [i|] eqn:Hi.
  - destruct (num_end_some _ _ Hi) as (c & r & Hb & Hsk & Hc & Hall & Hlen).
    destruct ((i =? 0)%nat || ((i =? 1)%nat && signed_start b)) eqn:Hs.
    + assert (Hsign : sign (firstn i b)).
      { unfold sign. apply orb_true_iff in Hs as [Hs|Hs].
        - apply Nat.eqb_eq in Hs. subst i. left. reflexivity.
        - apply andb_true_iff in Hs as [H1 H2]. apply Nat.eqb_eq in H1. subst i.
          destruct b as [|x b]; [discriminate|]. simpl in H2 |- *.
          right. assert (x = 45 \/ x = 43) as [-> | ->] by lia; auto. }
      rewrite Hsk. unfold inf_nan. destruct (3 <=? zlen (c :: r)) eqn:H3; [|discriminate].
      assert (Hsplit : c :: r = firstn 3 (c :: r) ++ skipn 3 (c :: r)) by (symmetry; apply firstn_skipn).
      set (f3 := firstn 3 (c :: r)) in *. set (s3 := skipn 3 (c :: r)) in *. clearbody f3 s3.
      change (bs "inf") with [105; 110; 102]. change (bs "nan") with [110; 97; 110].
      destruct (fold_is f3 [105; 110; 102]) eqn:Hinf.
      * apply fold_spells in Hinf; [|lia..]. intros H; injection H as <- <-. right.
        exists JInf, (firstn i b ++ f3). split; [|split; [|split; [reflexivity|split; [intros []|]]]].
        -- rewrite <- app_assoc, <- Hsplit. auto.
        -- constructor; auto.
        -- intros Hx. exfalso. destruct (spells_inf_hd _ Hinf) as (x & y & z & Hw & Hxx).
           rewrite Hw in Hx. destruct Hsign as [Hq|[Hq|Hq]]; rewrite Hq in Hx; cbn in Hx;
             injection Hx; intros; lia.
      * destruct (fold_is f3 [110; 97; 110]) eqn:Hnan; [|discriminate].
        apply fold_spells in Hnan; [|lia..]. intros H; injection H as <- <-. right.
        exists JNan, (firstn i b ++ f3). split; [|split; [|split; [reflexivity|split; [intros []|]]]].
        -- rewrite <- app_assoc, <- Hsplit. auto.
        -- constructor; auto. intros Hq. rewrite Hq in Hb. cbn [app] in Hb. rewrite Hb in Hhd.
           destruct (spells_nan_hd _ Hnan) as (x & y & z & -> & _). injection Hsplit as -> _. exact Hhd.
        -- intros Hx. exfalso. destruct (spells_nan_hd _ Hnan) as (x & y & z & Hw & Hxx).
           rewrite Hw in Hx. destruct Hsign as [Hq|[Hq|Hq]]; rewrite Hq in Hx; cbn in Hx;
             injection Hx; intros; try lia.
           destruct Hnan as (x' & y' & z' & He & _ & Hy & _). rewrite Hw in He.
           injection He as <- <- <-. unfold up in Hy. lia.
    + assert (Hnum : number (firstn i b)).
      { apply orb_false_iff in Hs as [Hs1 Hs2]. apply Nat.eqb_neq in Hs1.
        repeat split; auto.
        - intros Hx. rewrite Hx in Hlen. simpl in Hlen. congruence.
        - intros Hx. rewrite Hx in *. simpl in Hlen. subst i. rewrite Hb in Hs2. simpl in Hs2. discriminate.
        - intros Hx. rewrite Hx in *. simpl in Hlen. subst i. rewrite Hb in Hs2. simpl in Hs2. discriminate. }
      intros H. right. exists (JNumber (firstn i b)), (firstn i b).
      assert (Hr : parseJsonNum E b = Ok (tree_of E (JNumber (firstn i b)), c :: r)).
      { rewrite Hb at 1. apply num_plain; auto. }
      unfold parseJsonNum in Hr. rewrite Hi, Hs in Hr. rewrite Hr in H. injection H as <- <-.
      repeat split; auto.
      * constructor; auto.
      * intros _. eauto.
      * intros Hx. rewrite Hx in Hall. inversion Hall as [|? ? Hbad _]; subst.
        unfold number_byte, digit in Hbad. simpl in Hbad. lia.
  - intros H; injection H as <- <-. left. apply num_end_none in Hi. auto.
Qed.

Lemma word_sound (w b : bytes) (n : Z) : zlen w = n ->
  (zlen b <? n) || negb (beq (firstn (Z.to_nat n) b) w) = false ->
  b = w ++ skipn (Z.to_nat n) b.
Proof.
  intros Hn H. apply orb_false_iff in H as [_ H]. apply negb_false_iff, beq_eq in H.
  rewrite <- (firstn_skipn (Z.to_nat n) b) at 1. congruence.
Qed.

Definition value_sound (E : env) (b : bytes) (v : value) (rest : bytes) : Prop :=
  (v = VNilP /\ rest = [] /\ b <> [] /\ Forall number_byte b) \/
  exists t bt, b = bt ++ rest /\ dialect t bt /\ v = tree_of E t /\ follows t bt rest.

Lemma value_in_container E b v rest c r : value_sound E b v rest -> drop_ws rest = c :: r ->
  exists t bt, b = bt ++ rest /\ dialect t bt /\ v = tree_of E t.
Proof.
  intros [(_ & -> & _)|(t & bt & H1 & H2 & H3 & _)] Hr; [discriminate|eauto 6].
Qed.

Lemma sound E f :
  (forall b v rest, js_value E f b = Ok (v, rest) -> value_sound E b v rest) /\
  (forall b acc v rest, js_members E f b acc = Ok (v, rest) ->
     exists ms bm, b = bm ++ 125 :: rest /\ dmembers ms bm /\
       v = VObject false (acc ++ map (pair_tree E) ms)) /\
  (forall b acc v rest, js_elems E f b acc = Ok (v, rest) ->
     exists xs bx, b = bx ++ 93 :: rest /\ delems xs bx /\
       v = VArray (acc ++ map (tree_of E) xs)).
Proof.
  induction f as [|f (IHv & IHm & IHe)]; [repeat split; intros; discriminate|].
  split; [|split].
  - intros b v rest H. rewrite js_value_S in H. destruct b as [|c r]; [discriminate|].
    destruct (Z.eqb_spec c 123) as [->|].
    { right. rewrite skipWB_eq in H. destruct (drop_ws_split r) as (w & Hw & Hr).
      destruct (drop_ws r) as [|c1 t] eqn:Hd; [discriminate|].
      destruct (Z.eqb_spec c1 125) as [->|].
      - injection H as <- <-. exists (JObject []), ([123] ++ w ++ [125]).
        split; [rewrite Hr; apps; auto|]. split; [apply json_empty_obj; auto|]. split; [auto|].
        apply follows_plain; [simpl; tauto|discriminate].
      - destruct (IHm _ _ _ _ H) as (ms & bm & Hbm & Hms & ->).
        exists (JObject ms), ([123] ++ (w ++ bm) ++ [125]).
        split; [rewrite Hr, Hbm; apps; auto|].
        split; [|split; [reflexivity|apply follows_plain; [simpl; tauto|discriminate]]].
        apply json_obj.
        (* whitespace before the first member *)
        assert (Hw1 : forall k x b, dmember k x b -> dmember k x (w ++ b)).
        { intros k x b [w1 k' w2 w3 x' bx w4 H1 H2 H3 H4 H5 H6]. rewrite app_assoc.
          constructor; auto. apply Forall_app; auto. }
        inversion Hms; subst; [apply members_one; auto|]. rewrite app_assoc. apply members_more; auto. }
    destruct (Z.eqb_spec c 91) as [->|].
    { right. rewrite skipWB_eq in H. destruct (drop_ws_split r) as (w & Hw & Hr).
      destruct (drop_ws r) as [|c1 t] eqn:Hd; [discriminate|].
      destruct (Z.eqb_spec c1 93) as [->|].
      - injection H as <- <-. exists (JArray []), ([91] ++ w ++ [93]).
        split; [rewrite Hr; apps; auto|]. split; [apply json_empty_arr; auto|]. split; [auto|].
        apply follows_plain; [simpl; tauto|discriminate].
      - destruct (IHe _ _ _ _ H) as (xs & bx & Hbx & Hxs & ->).
        exists (JArray xs), ([91] ++ (w ++ bx) ++ [93]).
        split; [rewrite Hr, Hbx; apps; auto|].
        split; [|split; [reflexivity|apply follows_plain; [simpl; tauto|discriminate]]].
        apply json_arr.
        inversion Hxs as [w1 x b1 w2 H1 H2 H3|w1 x b1 w2 xs' b' H1 H2 H3 H4]; subst.
        + rewrite app_assoc. apply elems_one; auto. apply Forall_app; auto.
        + replace (w ++ (w1 ++ b1 ++ w2) ++ [44] ++ b') with
            (((w ++ w1) ++ b1 ++ w2) ++ [44] ++ b') by (rewrite <- !app_assoc; auto).
          apply elems_more; auto. apply Forall_app; auto. }
    destruct (Z.eqb_spec c 34) as [->|].
    { apply bind_ok in H as ([ss t] & H1 & H2). injection H2 as <- <-.
      apply parse_string_inv in H1 as [Hs ->]. right.
      exists (JString ss), ([34] ++ ss ++ [34]). split; [apps; auto|].
      split; [constructor; constructor; auto|]. split; [reflexivity|].
      apply follows_plain; [simpl; tauto|discriminate]. }
    destruct (Z.eqb_spec c 116) as [->|].
    { destruct (_ || _) eqn:Hg in H; [discriminate|]. injection H as <- <-.
      apply (word_sound (bs "true") _ 4 eq_refl) in Hg. right.
      exists JTrue, (bs "true"). split; [exact Hg|]. split; [constructor; constructor|]. split; [reflexivity|].
      apply follows_plain; [simpl; tauto|discriminate]. }
    destruct (Z.eqb_spec c 102) as [->|].
    { destruct (_ || _) eqn:Hg in H; [discriminate|]. injection H as <- <-.
      apply (word_sound (bs "false") _ 5 eq_refl) in Hg. right.
      exists JFalse, (bs "false"). split; [exact Hg|]. split; [constructor; constructor|]. split; [reflexivity|].
      apply follows_plain; [simpl; tauto|discriminate]. }
    destruct (Z.eqb_spec c 110) as [->|].
    { right. destruct ((zlen (110 :: r) <? 4) || _) eqn:Hg in H.
      - destruct ((3 <=? zlen (110 :: r)) && _) eqn:Hg2 in H; [|discriminate].
        apply andb_true_iff in Hg2 as [Hg1 Hg2]. injection H as <- <-.
        destruct r as [|a [|b r]]; [discriminate..|].
        exists JNan, [110; a; b]. split; [reflexivity|].
        split; [constructor; constructor; intros Hx; injection Hx as -> ->; discriminate|].
        split; [reflexivity|]. split; [simpl; tauto|].
        intros Hx Hh. injection Hx as -> ->. cbn [skipn] in Hh.
        destruct r as [|d r]; [discriminate|]. simpl in Hh. subst d.
        cbn [firstn] in Hg. rewrite !zlen_cons in Hg. pose proof (zlen_nonneg r).
        rewrite (proj2 (Z.ltb_ge _ _)) in Hg by lia. discriminate.
      - injection H as <- <-. apply (word_sound (bs "null") _ 4 eq_refl) in Hg.
        exists JNull, (bs "null"). split; [exact Hg|]. split; [constructor; constructor|]. split; [reflexivity|].
        apply follows_plain; [simpl; tauto|discriminate]. }
    apply parseJsonNum_sound in H; [|discriminate|simpl; auto].
    destruct H as [(-> & -> & H)|(t & bt & H1 & H2 & H3 & H4)].
    + left. repeat split; auto. discriminate.
    + right. exists t, bt. repeat split; auto; try apply H4. constructor; auto.
  - intros b acc v rest H. rewrite js_members_S in H. rewrite skipWB_eq in H.
    destruct (drop_ws_split b) as (w1 & Hw1 & Hb).
    destruct (drop_ws b) as [|c r] eqn:Hd; [discriminate|].
    destruct (Z.eqb_spec c 34) as [->|]; [|discriminate]. cbn [negb] in H.
    apply bind_ok in H as ([k b2] & Hk & H). apply parse_key_inv in Hk as [Hk ->].
    rewrite skipWB_eq in H. destruct (drop_ws_split b2) as (w2 & Hw2 & Hb2).
    destruct (drop_ws b2) as [|c3 r3] eqn:Hd2; [discriminate|].
    destruct (Z.eqb_spec c3 58) as [->|]; [|discriminate]. cbn [negb] in H.
    apply bind_ok in H as ([x b5] & Hx & H). apply IHv in Hx.
    rewrite skipWB_fst in Hx. destruct (drop_ws_split r3) as (w3 & Hw3 & Hb3).
    rewrite skipWB_eq in H. destruct (drop_ws_split b5) as (w4 & Hw4 & Hb5).
    destruct (drop_ws b5) as [|c6 r6] eqn:Hd5; [discriminate|].
    destruct (value_in_container _ _ _ _ _ _ Hx Hd5) as (t & bt & Hbt & Ht & ->).
    set (m := w1 ++ [34] ++ k ++ [34] ++ w2 ++ [58] ++ w3 ++ bt ++ w4).
    assert (Hm : dmember k t m) by (constructor; auto).
    assert (Hbm : b = m ++ c6 :: r6).
    { unfold m. rewrite Hb, Hb2, Hb3, Hbt, Hb5. apps. reflexivity. }
    destruct (Z.eqb_spec c6 44) as [->|].
    + destruct (IHm _ _ _ _ H) as (ms & bm & -> & Hms & ->).
      exists ((k, t) :: ms), (m ++ [44] ++ bm). split; [rewrite Hbm; apps; auto|].
      split; [apply members_more; auto|]. cbn [map]. rewrite <- app_assoc. reflexivity.
    + destruct (Z.eqb_spec c6 125) as [->|]; [|discriminate]. injection H as <- <-.
      exists [(k, t)], m. split; [auto|]. split; [apply members_one; auto|]. reflexivity.
  - intros b acc v rest H. rewrite js_elems_S in H. rewrite skipWB_fst in H.
    destruct (drop_ws_split b) as (w1 & Hw1 & Hb).
    apply bind_ok in H as ([x b2] & Hx & H). apply IHv in Hx.
    rewrite skipWB_eq in H. destruct (drop_ws_split b2) as (w2 & Hw2 & Hb2).
    destruct (drop_ws b2) as [|c6 r6] eqn:Hd2; [discriminate|].
    destruct (value_in_container _ _ _ _ _ _ Hx Hd2) as (t & bt & Hbt & Ht & ->).
    assert (Hbm : b = (w1 ++ bt ++ w2) ++ c6 :: r6).
    { rewrite Hb, Hbt, Hb2. apps. reflexivity. }
    destruct (Z.eqb_spec c6 44) as [->|].
    + destruct (IHe _ _ _ _ H) as (xs & bx & -> & Hxs & ->).
      exists (t :: xs), ((w1 ++ bt ++ w2) ++ [44] ++ bx). split; [rewrite Hbm; apps; auto|].
      split; [apply elems_more; auto|]. cbn [map]. rewrite <- app_assoc. reflexivity.
    + destruct (Z.eqb_spec c6 93) as [->|]; [|discriminate]. injection H as <- <-.
      exists [t], (w1 ++ bt ++ w2). split; [auto|]. split; [apply elems_one; auto|]. reflexivity.
Qed.

(** ** Totality and errors *)

(** An unterminated key: the error of jsonparse.go:240-243 on an input ending with a quote
    and the bytes [k]. *)
Definition unterminated (b : bytes) (e : gerr) : Prop :=
  exists p k, b = p ++ 34 :: k /\ k <> [] /\ ~ In 34 k /\ e = ErrJson JET_NoKeyStart (zlen k) [].
Definition err_ok (b : bytes) (e : gerr) : Prop :=
  error_string_ok e = true \/ unterminated b e.
Definition suffix (s b : bytes) : Prop := exists p, b = p ++ s.

Lemma suffix_refl b : suffix b b.
Proof. exists []; auto. Qed.
Lemma suffix_trans a b c : suffix a b -> suffix b c -> suffix a c.
Proof. intros [p ->] [q ->]. exists (q ++ p). rewrite app_assoc; auto. Qed.
Lemma suffix_cons c b : suffix b (c :: b).
Proof. exists [c]; auto. Qed.
Lemma suffix_drop b : suffix (drop_ws b) b.
Proof. destruct (drop_ws_split b) as (w & _ & H). exists w; auto. Qed.
Lemma suffix_len a b : suffix a b -> (List.length a <= List.length b)%nat.
Proof. intros [p ->]. rewrite app_length; lia. Qed.
Lemma err_ok_suffix a b e : suffix a b -> err_ok a e -> err_ok b e.
Proof.
  intros [q ->] [H|(p & k & -> & H)]; [left; auto|right].
  exists (q ++ p), k. rewrite app_assoc. auto.
Qed.
Lemma skip_err_ok b0 b t : err_ok b0 (ErrJson t (snd (skipWB b)) b).
Proof.
  left. cbn [error_string_ok]. pose proof (skipWB_len b).
  destruct (snd (skipWB b) + 32 <? zlen b) eqn:Hl; lia.
Qed.
Lemma err_ok_0 b t : err_ok b (ErrJson t 0 []).
Proof. left; reflexivity. Qed.

Definition good (b : bytes) (r : res (value * bytes)) : Prop :=
  match r with
  | Ok _ => True
  | Err e => err_ok b e
  | _ => False
  end.
Lemma good_suffix a b r : suffix a b -> good a r -> good b r.
Proof. destruct r as [[? ?]| | |]; simpl; eauto using err_ok_suffix. Qed.

Lemma value_sound_suffix E b v rest : value_sound E b v rest ->
  suffix rest b /\ (List.length rest < List.length b)%nat.
Proof.
  intros [(_ & -> & Hb & _)|(t & bt & -> & Ht & _)].
  - split; [exists b; rewrite app_nil_r; auto|]. destruct b; [congruence|simpl; lia].
  - split; [exists bt; auto|]. rewrite app_length. apply dialect_nonempty in Ht.
    destruct bt; [congruence|simpl; lia].
Qed.

Lemma parseJsonNum_good E b : good b (parseJsonNum E b).
Proof.
  unfold parseJsonNum. destruct (num_end b) as [i|]; [|exact I].
  destruct (_ || _); [|destruct (existsb _ _); exact I]. unfold inf_nan.
  repeat (match goal with |- context [if ?c then _ else _] => destruct c end); try exact I; left; reflexivity.
Qed.

Lemma parse_total E f :
  (forall b, (2 * List.length b + 1 <= f)%nat -> good b (js_value E f b)) /\
  (forall b acc, (2 * List.length b + 2 <= f)%nat -> good b (js_members E f b acc)) /\
  (forall b acc, (2 * List.length b + 2 <= f)%nat -> good b (js_elems E f b acc)).
Proof.
  induction f as [|f (IHv & IHm & IHe)]; [repeat split; intros; lia|].
  split; [|split].
  - intros b Hf. rewrite js_value_S. destruct b as [|c r]; [apply err_ok_0|].
    cbn [List.length] in Hf.
    pose proof (drop_ws_length r) as Hdl.
    destruct (c =? 123).
    { rewrite skipWB_eq. pose proof (suffix_drop r) as Hsuf. destruct (drop_ws r) as [|c1 t] eqn:Hd.
      - apply skip_err_ok.
      - destruct (c1 =? 125); [exact I|]. eapply good_suffix; [|apply IHm; lia].
        eapply suffix_trans; [eauto|apply suffix_cons]. }
    destruct (c =? 91).
    { rewrite skipWB_eq. pose proof (suffix_drop r) as Hsuf. destruct (drop_ws r) as [|c1 t] eqn:Hd.
      - apply skip_err_ok.
      - destruct (c1 =? 93); [exact I|]. eapply good_suffix; [|apply IHe; lia].
        eapply suffix_trans; [eauto|apply suffix_cons]. }
    destruct (c =? 34).
    { destruct (parse_string_cases r) as [(s & t & Hs)|Hs]; rewrite Hs; cbn [bind]; [exact I|apply err_ok_0]. }
    destruct (c =? 116); [destruct (_ || _); [left; reflexivity|exact I]|].
    destruct (c =? 102); [destruct (_ || _); [left; reflexivity|exact I]|].
    destruct (c =? 110).
    { destruct (_ || _); [|exact I]. destruct (_ && _); [exact I|left; reflexivity]. }
    apply parseJsonNum_good.
  - intros b acc Hf. rewrite js_members_S, skipWB_eq.
    pose proof (suffix_drop b) as Hs1. pose proof (drop_ws_length b) as Hl1.
    destruct (drop_ws b) as [|c r]; [apply skip_err_ok|]. cbn [List.length] in Hl1.
    destruct (Z.eqb_spec c 34) as [->|]; cbn [negb]; [|apply skip_err_ok].
    destruct (parse_key_cases r) as [(k & b2 & Hk)|[Hq Hk]]; rewrite Hk; cbn [bind].
    2: { destruct r as [|x r]; [left; reflexivity|]. right.
         destruct Hs1 as [p Hp]. exists p, (x :: r). repeat split; auto. discriminate. }
    apply parse_key_inv in Hk as [_ ->].
    assert (Hs2 : suffix b2 b) by (eapply suffix_trans; [|exact Hs1]; exists (34 :: k ++ [34]); apps; auto).
    rewrite app_length in Hl1. cbn [List.length] in Hl1.
    rewrite skipWB_eq. pose proof (suffix_drop b2) as Hs3. pose proof (drop_ws_length b2) as Hl2.
    destruct (drop_ws b2) as [|c3 r3]; [apply skip_err_ok|]. cbn [List.length] in Hl2.
    destruct (negb (c3 =? 58)); [apply skip_err_ok|].
    assert (Hs4 : suffix (drop_ws r3) b).
    { eapply suffix_trans; [apply suffix_drop|]. eapply suffix_trans; [apply (suffix_cons c3)|].
      eapply suffix_trans; eauto. }
    rewrite skipWB_fst. pose proof (drop_ws_length r3) as Hl3.
    assert (Hg : good b (js_value E f (drop_ws r3))) by (eapply good_suffix; [eauto|apply IHv; lia]).
    destruct (js_value E f (drop_ws r3)) as [[v b5]|e| |] eqn:Hv; cbn [bind]; try exact Hg.
    apply (proj1 (sound E f)) in Hv. destruct (value_sound_suffix _ _ _ _ Hv) as [Hs5 Hl5].
    assert (Hs6 : suffix b5 b) by (eapply suffix_trans; eauto).
    rewrite skipWB_eq. pose proof (suffix_drop b5) as Hs7. pose proof (drop_ws_length b5) as Hl7.
    destruct (drop_ws b5) as [|c6 r6]; [apply skip_err_ok|]. cbn [List.length] in Hl7.
    destruct (c6 =? 44).
    + eapply good_suffix; [|apply IHm; lia].
      eapply suffix_trans; [apply (suffix_cons c6)|]. eapply suffix_trans; eauto.
    + destruct (c6 =? 125); [exact I|apply skip_err_ok].
  - intros b acc Hf. rewrite js_elems_S, skipWB_fst.
    pose proof (suffix_drop b) as Hs1. pose proof (drop_ws_length b) as Hl1.
    assert (Hg : good b (js_value E f (drop_ws b))) by (eapply good_suffix; [eauto|apply IHv; lia]).
    destruct (js_value E f (drop_ws b)) as [[v b5]|e| |] eqn:Hv; cbn [bind]; try exact Hg.
    apply (proj1 (sound E f)) in Hv. destruct (value_sound_suffix _ _ _ _ Hv) as [Hs5 Hl5].
    assert (Hs6 : suffix b5 b) by (eapply suffix_trans; eauto).
    rewrite skipWB_eq. pose proof (suffix_drop b5) as Hs7. pose proof (drop_ws_length b5) as Hl7.
    destruct (drop_ws b5) as [|c6 r6]; [apply skip_err_ok|]. cbn [List.length] in Hl7.
    destruct (c6 =? 44).
    + eapply good_suffix; [|apply IHe; lia].
      eapply suffix_trans; [apply (suffix_cons c6)|]. eapply suffix_trans; eauto.
    + destruct (c6 =? 93); [exact I|apply skip_err_ok].
Qed.

Lemma NewValueFromJson_good E b :
  match NewValueFromJson E b with
  | Ok _ => True | Err e => err_ok b e | _ => False
  end.
Proof.
  unfold NewValueFromJson. rewrite skipWB_fst.
  assert (Hg : good (drop_ws b) (js_value E (js_fuel (drop_ws b)) (drop_ws b)))
    by (apply parse_total; unfold js_fuel; lia).
  destruct (js_value _ _ _) as [[v t]|e| |]; cbn [bind good] in *; try exact Hg.
  - rewrite skipWB_eq. destruct (drop_ws t); [exact I|apply skip_err_ok].
  - eapply err_ok_suffix; [apply suffix_drop|auto].
Qed.

(** ** The two halves together *)
Lemma accepts_value E w1 bt w2 t : ws w1 -> dialect t bt -> follows t bt w2 ->
  NewValueFromJson E (w1 ++ bt ++ w2) =
  match drop_ws w2 with [] => Ok (tree_of E t)
  | _ :: _ => Err (ErrJson JET_Invalidate (snd (skipWB w2)) w2) end.
Proof.
  intros Hw1 Ht Hf. unfold NewValueFromJson. rewrite skipWB_fst, drop_ws_first; eauto using dialect_first.
  rewrite (proj1 (complete E) t bt Ht); [|auto|unfold js_fuel; lia].
  cbn [bind]. rewrite (skipWB_eq w2). destruct (drop_ws w2); reflexivity.
Qed.

Lemma accepted_iff E b v : v <> VNilP ->
  (NewValueFromJson E b = Ok v <->
   exists w1 t bt w2, b = w1 ++ bt ++ w2 /\ ws w1 /\ dialect t bt /\ ws w2 /\
     (is_number t -> w2 <> []) /\ v = tree_of E t).
Proof.
  intros Hv. split.
  - unfold NewValueFromJson. rewrite skipWB_fst. intros H. apply bind_ok in H as ([x tl] & H1 & H2).
    apply (proj1 (sound E _)) in H1. rewrite skipWB_eq in H2.
    destruct (drop_ws tl) eqn:Ht; [|discriminate]. injection H2 as <-.
    destruct H1 as [(-> & _)|(t & bt & Hb & Hd & -> & Hf)]; [congruence|].
    destruct (drop_ws_split b) as (w1 & Hw1 & Hb1). rewrite Hb in Hb1.
    exists w1, t, bt, tl. repeat split; auto.
    + apply drop_ws_nil; auto.
    + intros Hn. destruct (proj1 Hf Hn) as (c & r & -> & _). discriminate.
  - intros (w1 & t & bt & w2 & -> & Hw1 & Hd & Hw2 & Hn & ->).
    rewrite (accepts_value E w1 bt w2 t); auto.
    + rewrite (proj2 (drop_ws_nil w2)); auto.
    + split.
      * intros Ht. specialize (Hn Ht). destruct Hw2 as [|c w Hc Hw]; [congruence|].
        exists c, w. split; auto. unfold number_byte, digit. simpl in *. lia.
      * intros _. destruct Hw2 as [|c w Hc Hw]; simpl in *; lia.
Qed.

Lemma tree_not_nil E t : tree_of E t <> VNilP.
Proof.
  destruct t; cbn [tree_of]; try discriminate.
  - destruct (x_jsontime E raw); discriminate.
  - destruct (in_dec Z.eq_dec 46 lex); discriminate.
Qed.

Lemma nil_iff E b : NewValueFromJson E b = Ok VNilP <->
  exists w lex, b = w ++ lex /\ ws w /\ lex <> [] /\ Forall number_byte lex.
Proof.
  split.
  - unfold NewValueFromJson. rewrite skipWB_fst. intros H. apply bind_ok in H as ([x tl] & H1 & H2).
    apply (proj1 (sound E _)) in H1. rewrite skipWB_eq in H2.
    destruct (drop_ws tl) eqn:Ht; [|discriminate]. injection H2 as ->.
    destruct H1 as [(_ & _ & H1 & H2)|(t & bt & Hb & Hd & Hx & Hf)];
      [|exfalso; eapply tree_not_nil; eauto].
    destruct (drop_ws_split b) as (w1 & Hw1 & Hb1). exists w1, (drop_ws b). auto.
  - intros (w & lex & -> & Hw & Hne & Hall). unfold NewValueFromJson.
    rewrite skipWB_fst, drop_ws_app by auto.
    assert (Hd : drop_ws lex = lex).
    { apply drop_ws_id. intros c r ->. inversion Hall as [|? ? Hc _]; subst.
      unfold wsb, number_byte, digit in *. simpl in Hc. lia. }
    rewrite Hd. unfold js_fuel. rewrite Nat.add_comm. cbn [Nat.add]. rewrite js_value_S.
    destruct lex as [|c r]; [congruence|]. assert (Hc : number_byte c) by (inversion Hall; auto).
    unfold number_byte, digit in Hc. simpl in Hc.
    destruct (Z.eqb_spec c 123); [lia|]. destruct (Z.eqb_spec c 91); [lia|].
    destruct (Z.eqb_spec c 34); [lia|]. destruct (Z.eqb_spec c 116); [lia|].
    destruct (Z.eqb_spec c 102); [lia|]. destruct (Z.eqb_spec c 110); [lia|].
    unfold parseJsonNum. apply num_end_none in Hall. rewrite Hall. reflexivity.
Qed.
