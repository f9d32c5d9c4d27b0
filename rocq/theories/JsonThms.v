(** Loading into an existing value, the literals, RFC 8259 and counterexamples. *)
From Coq Require Import String.
From Verif Require Import Base Values Tactics Env0 Env0Thms BsonSpec JsonModel JsonSpec JsonLex
  JsonParse JsonSound JsonWrite.

(** ** The example environment reads back the integers it prints *)
Lemma env0_ints ic : int_parser_ok (env0 ic).
Proof.
  intros n d _. change (x_str2int (env0 ic)) with str2int0. destruct (Z.ltb_spec n 0).
  - unfold fmt_int. destruct (Z.ltb_spec n 0); [|lia].
    destruct (dec_nat_bytes (- n)) as [_ Hne]; [lia|]. unfold dec_nat in *.
    pose proof (dec_digits_read (S (Z.to_nat (Z.log2 (- n)))) (- n) []) as Hr.
    destruct (dec_digits _ (- n) []) as [|c r]; [congruence|]. cbn [str2int0].
    rewrite Hr; [|split; [lia|apply log2_bound; lia]|lia]. cbn [digits0]. lia.
  - apply str2int0_fmt; auto.
Qed.

(** ** RFC 8259 *)
Lemma json_mono (s1 s2 : jtree -> bytes -> Prop) (k1 k2 : bytes -> Prop) :
  (forall t b, s1 t b -> s2 t b) -> (forall k, k1 k -> k2 k) ->
  (forall t b, json s1 k1 t b -> json s2 k2 t b) /\
  (forall k x b, member s1 k1 k x b -> member s2 k2 k x b) /\
  (forall ms b, members s1 k1 ms b -> members s2 k2 ms b) /\
  (forall xs b, elems s1 k1 xs b -> elems s2 k2 xs b).
Proof.
  intros Hs Hk. apply json_mutind; intros.
  - apply json_scalar; auto.
  - apply json_empty_obj; auto.
  - apply json_empty_arr; auto.
  - apply json_obj; auto.
  - apply json_arr; auto.
  - constructor; auto.
  - apply members_one; auto.
  - apply members_more; auto.
  - apply elems_one; auto.
  - apply elems_more; auto.
Qed.
Lemma rfc_content_str s : rfc_content s -> str_content s.
Proof.
  induction 1 as [|c r H1 H2 H3 H IH|c r H1 H IH|a b c d r Ha Hb Hc Hd H IH].
  - constructor.
  - apply str_plain; auto.
  - apply str_esc; auto.
  - apply str_esc. unfold hexdigit, digit in *. repeat (apply str_plain; [lia|lia|]). auto.
Qed.
Lemma digits_number d : Forall digit d -> Forall number_byte d.
Proof. apply Forall_impl. intros; left; auto. Qed.
Lemma rfc_number_ok lex : rfc_number lex -> number lex.
Proof.
  intros (m & i & f & e & -> & Hm & Hi & Hf & He).
  assert (Hint : exists c r, i = c :: r /\ digit c /\ Forall digit r).
  { destruct Hi as [->|(c & r & -> & Hc & Hr)]; eexists _, _; (split; [reflexivity|]); unfold digit in *.
    - split; [lia|constructor].
    - split; [lia|auto]. }
  destruct Hint as (c & r & -> & Hc & Hr).
  assert (Hall : Forall number_byte (m ++ (c :: r) ++ f ++ e)).
  { repeat (apply Forall_app; split).
    - destruct Hm as [->| ->]; constructor; [right; simpl; tauto|constructor].
    - apply digits_number. constructor; auto.
    - destruct Hf as [->|(d & -> & _ & Hd)]; constructor; [right; simpl; tauto|apply digits_number; auto].
    - destruct He as [->|(x & s & d & -> & Hx & Hs & _ & Hd)]; constructor.
      + right; simpl; lia.
      + apply Forall_app. split; [|apply digits_number; auto].
        destruct Hs as [->|[->| ->]]; constructor; try (right; simpl; tauto); constructor. }
  unfold digit in Hc.
  repeat split; auto; destruct Hm as [->| ->]; cbn [app]; intros Hx; try discriminate;
    injection Hx; intros; lia.
Qed.
Lemma rfc_scalar_ok t b : rfc_scalar t b -> d_scalar t b.
Proof.
  intros []; try constructor; auto using rfc_content_str, rfc_number_ok.
Qed.
Lemma rfc_dialect t b : rfc8259_nq t b -> dialect t b.
Proof.
  apply (json_mono rfc_scalar d_scalar rfc_key_nq d_key); [apply rfc_scalar_ok|intros k [_ H]; auto].
Qed.
Lemma rfc_accepted E w1 t bt w2 : ws w1 -> rfc8259_nq t bt -> ws w2 -> (is_number t -> w2 <> []) ->
  NewValueFromJson E (w1 ++ bt ++ w2) = Ok (tree_of E t).
Proof.
  intros. apply accepted_iff; [apply tree_not_nil|]. exists w1, t, bt, w2.
  repeat split; auto. apply rfc_dialect; auto.
Qed.

(** ** Whitespace *)
Lemma respaced E t b1 b2 w1 w2 w3 w4 : dialect t b1 -> dialect t b2 -> ws w1 -> ws w2 -> ws w3 -> ws w4 ->
  (is_number t -> w2 <> [] /\ w4 <> []) ->
  NewValueFromJson E (w1 ++ b1 ++ w2) = NewValueFromJson E (w3 ++ b2 ++ w4).
Proof.
  intros H1 H2 Hw1 Hw2 Hw3 Hw4 Hn.
  rewrite (proj2 (accepted_iff E (w1 ++ b1 ++ w2) (tree_of E t) (tree_not_nil E t)));
    [|exists w1, t, b1, w2; repeat split; auto; intros; apply Hn; auto].
  rewrite (proj2 (accepted_iff E (w3 ++ b2 ++ w4) (tree_of E t) (tree_not_nil E t)));
    [|exists w3, t, b2, w4; repeat split; auto; intros; apply Hn; auto]. reflexivity.
Qed.
Lemma leading_ws E w b : ws w -> NewValueFromJson E (w ++ b) = NewValueFromJson E b.
Proof. intros Hw. unfold NewValueFromJson. rewrite !skipWB_fst, drop_ws_app; auto. Qed.

(** ** Trailing garbage *)
Lemma trailing E w1 bt t g : ws w1 -> dialect t bt -> ~ is_number t -> hd 0 g <> 108 ->
  (NewValueFromJson E (w1 ++ bt ++ g) = Ok (tree_of E t) <-> ws g) /\
  (~ ws g -> exists e, NewValueFromJson E (w1 ++ bt ++ g) = Err e).
Proof.
  intros Hw Ht Hn Hg. rewrite (accepts_value E w1 bt g t); auto.
  2: { split; auto. intros; contradiction. }
  rewrite <- drop_ws_nil. destruct (drop_ws g); split; try tauto.
  - split; discriminate.
  - intros _. eauto.
Qed.

(** ** Literals *)
Lemma literal_iff E b : 
  (NewValueFromJson E b = Ok VTrue <-> exists w1 w2, b = w1 ++ bs "true" ++ w2 /\ ws w1 /\ ws w2) /\
  (NewValueFromJson E b = Ok VFalse <-> exists w1 w2, b = w1 ++ bs "false" ++ w2 /\ ws w1 /\ ws w2) /\
  (NewValueFromJson E b = Ok VNull <-> exists w1 w2, b = w1 ++ bs "null" ++ w2 /\ ws w1 /\ ws w2).
Proof.
  assert (Hscalar : forall t bt, dialect t bt ->
    (tree_of E t = VTrue -> bt = bs "true") /\ (tree_of E t = VFalse -> bt = bs "false") /\
    (tree_of E t = VNull -> bt = bs "null")).
  { intros t bt [t' b' H| | | |]; try (repeat split; discriminate).
    destruct H; cbn [tree_of]; try (repeat split; discriminate); try (repeat split; [auto|discriminate|discriminate]);
      try (repeat split; try discriminate; auto).
    all: destruct (x_jsontime E raw) || destruct (in_dec Z.eq_dec 46 lex); discriminate. }
  repeat split;
    match goal with
    | |- _ = _ -> _ =>
        intros H; apply accepted_iff in H; [|discriminate];
        destruct H as (w1 & t & bt & w2 & Hb & Hw1 & Hd & Hw2 & _ & Hv);
        destruct (Hscalar t bt Hd) as (H1 & H2 & H3);
        exists w1, w2; repeat split; auto; rewrite Hb; f_equal; f_equal; auto
    | |- (exists _, _) -> _ =>
        intros (w1 & w2 & Hb & Hw1 & Hw2); apply accepted_iff; [discriminate|]
    end.
  - exists w1, JTrue, (bs "true"), w2. repeat split; auto; try contradiction. constructor; constructor.
  - exists w1, JFalse, (bs "false"), w2. repeat split; auto; try contradiction. constructor; constructor.
  - exists w1, JNull, (bs "null"), w2. repeat split; auto; try contradiction. constructor; constructor.
Qed.
Lemma nan_iff E b : NewValueFromJson E b = Ok VNan <->
  exists w1 tok w2, b = w1 ++ tok ++ w2 /\ ws w1 /\ ws w2 /\
    ((exists s w, sign s /\ spells w 110 97 110 /\ (s = [] -> hd 0 w <> 110) /\ tok = s ++ w) \/
     (exists x y, tok = [110; x; y] /\ [x; y] <> [97; 110])).
Proof.
  split.
  - intros H; apply accepted_iff in H; [|discriminate].
    destruct H as (w1 & t & bt & w2 & Hb & Hw1 & Hd & Hw2 & _ & Hv).
    exists w1, bt, w2. repeat split; auto. destruct Hd as [t bt H| | | |]; try discriminate.
    destruct H; try discriminate Hv.
    + cbn [tree_of] in Hv. destruct (x_jsontime E raw); discriminate.
    + cbn [tree_of] in Hv. destruct (in_dec Z.eq_dec 46 lex); discriminate.
    + left. exists s, w. auto.
    + right. exists a, b0. auto.
  - intros (w1 & tok & w2 & Hb & Hw1 & Hw2 & H). apply accepted_iff; [discriminate|].
    exists w1, JNan, tok, w2. repeat split; auto; try contradiction.
    destruct H as [(s & w & H1 & H2 & H3 & ->)|(x & y & -> & H)]; constructor; constructor; auto.
Qed.

(** ** LoadFromJson *)
Lemma load_members_S E f b acc : load_members E (S f) b acc =
      let fresh := acc ++ [([], VNilP)] in
      match skipWB b with
      | ([], sk) => (fresh, jerr JET_NoKeyStart sk b)
      | (c :: r, sk) =>
          if negb (c =? 34) then (fresh, jerr JET_NoKeyStart sk b)
          else
            match parseJsonKey r with
            | Ok (k, b2) =>
                let keyed := acc ++ [(k, VNilP)] in
                match skipWB b2 with
                | ([], sk) => (keyed, jerr JET_NoKVSplit sk b2)
                | (c3 :: r3, sk) =>
                    if negb (c3 =? 58) then (keyed, jerr JET_NoKVSplit sk b2)
                    else
                      let b4 := fst (skipWB r3) in
                      match js_value E (js_fuel b4) b4 with
                      | Ok (v, b5) =>
                          let full := acc ++ [(k, v)] in
                          match skipWB b5 with
                          | ([], sk) => (full, jerr JET_NoObjBack sk b5)
                          | (c6 :: r6, sk) =>
                              if c6 =? 44 then load_members E f r6 full
                              else if c6 =? 125 then (full, Ok tt)
                              else (full, jerr JET_NoValueSplit sk b5)
                          end
                      | Err e => (keyed, Err e)
                      | Panic => (keyed, Panic)
                      | OutOfFuel => (keyed, OutOfFuel)
                      end
                end
            | Err e => (fresh, Err e)
            | Panic => (fresh, Panic)
            | OutOfFuel => (fresh, OutOfFuel)
            end
      end.
Proof. reflexivity. Qed.
Lemma load_elems_S E f b acc : load_elems E (S f) b acc =
      let b1 := fst (skipWB b) in
      match js_value E (js_fuel b1) b1 with
      | Ok (v, b2) =>
          let full := acc ++ [v] in
          match skipWB b2 with
          | ([], sk) => (full, jerr JET_NoArrBack sk b2)
          | (c :: r, sk) =>
              if c =? 44 then load_elems E f r full
              else if c =? 93 then (full, Ok tt)
              else (full, jerr JET_NoValueSplit sk b2)
          end
      | Err e => (acc, Err e)
      | Panic => (acc, Panic)
      | OutOfFuel => (acc, OutOfFuel)
      end.
Proof. reflexivity. Qed.

Lemma js_value_full E t b rest : dialect t b -> follows t b rest ->
  js_value E (js_fuel (b ++ rest)) (b ++ rest) = Ok (tree_of E t, rest).
Proof. intros H Hf. apply (proj1 (complete E)); auto. unfold js_fuel. lia. Qed.

Lemma load_member_step E f k x b c rest acc : dmember k x b -> (c = 44 \/ c = 125) ->
  load_members E (S f) (b ++ c :: rest) acc =
  if c =? 44 then load_members E f rest (acc ++ [(k, tree_of E x)])
  else (acc ++ [(k, tree_of E x)], Ok tt).
Proof.
  intros [w1 k' w2 w3 x' bx w4 Hw1 Hk Hw2 Hw3 Hx Hw4] Hc. rewrite load_members_S. apps.
  rewrite (skipWB_eq (w1 ++ _)), drop_ws_skip by auto. change (negb (34 =? 34)) with false. cbn match.
  rewrite parse_key_ok by auto.
  rewrite (skipWB_eq (w2 ++ _)), drop_ws_skip by auto. change (negb (58 =? 58)) with false. cbn match zeta.
  rewrite skipWB_fst, drop_ws_first by eauto using dialect_first.
  rewrite (js_value_full E _ _ _ Hx); [|apply delim_follows, delim_ws; auto; simpl; lia].
  rewrite (skipWB_eq (w4 ++ _)), drop_ws_skip; auto; destruct Hc as [-> | ->]; reflexivity.
Qed.
Lemma member_head k x b : dmember k x b -> exists w r, ws w /\ b = w ++ 34 :: r.
Proof. intros [w1 k' w2 w3 x' bx w4 H1 _ _ _ _ _]; exists w1; eexists; split; [exact H1|reflexivity]. Qed.
Lemma load_members_ok E ms b : dmembers ms b -> forall f rest acc, (List.length b < f)%nat ->
  load_members E f (b ++ 125 :: rest) acc = (acc ++ map (pair_tree E) ms, Ok tt).
Proof.
  induction 1 as [k x b H|k x b ms bm H _ IH]; intros f rest acc Hf; (destruct f as [|f]; [lia|]).
  - rewrite (load_member_step E f k x b 125 rest acc H) by auto. reflexivity.
  - apps. rewrite (load_member_step E f k x b 44 _ acc H) by auto.
    change (44 =? 44) with true. cbn match. rewrite IH.
    + apps. reflexivity.
    + destruct (member_head _ _ _ H) as (w & r & _ & ->). lens Hf.
Qed.
Lemma load_elem_step E f w1 x bx w2 c rest acc : ws w1 -> dialect x bx -> ws w2 -> (c = 44 \/ c = 93) ->
  load_elems E (S f) ((w1 ++ bx ++ w2) ++ c :: rest) acc =
  if c =? 44 then load_elems E f rest (acc ++ [tree_of E x]) else (acc ++ [tree_of E x], Ok tt).
Proof.
  intros Hw1 Hx Hw2 Hc. rewrite load_elems_S. cbn zeta. rewrite <- !app_assoc.
  rewrite skipWB_fst, drop_ws_first by eauto using dialect_first.
  rewrite (js_value_full E _ _ _ Hx); [|apply delim_follows, delim_ws; auto; simpl; lia].
  rewrite (skipWB_eq (w2 ++ _)), drop_ws_skip; auto; destruct Hc as [-> | ->]; reflexivity.
Qed.
Lemma load_elems_ok E xs b : delems xs b -> forall f rest acc, (List.length b < f)%nat ->
  load_elems E f (b ++ 93 :: rest) acc = (acc ++ map (tree_of E) xs, Ok tt).
Proof.
  induction 1 as [w1 x bx w2 Hw1 Hx Hw2|w1 x bx w2 xs b Hw1 Hx Hw2 _ IH]; intros f rest acc Hf;
    (destruct f as [|f]; [lia|]).
  - rewrite (load_elem_step E f w1 x bx w2) by auto. reflexivity.
  - rewrite <- (app_assoc (w1 ++ bx ++ w2)). cbn [app]. rewrite (load_elem_step E f w1 x bx w2) by auto.
    change (44 =? 44) with true. cbn match. rewrite IH.
    + apps. reflexivity.
    + lens Hf.
Qed.

Lemma members_head ms b : dmembers ms b -> exists w r, ws w /\ b = w ++ 34 :: r.
Proof.
  intros [k x bb H|k x bb ms' bm H _]; destruct (member_head _ _ _ H) as (w & r & Hw & ->); eauto.
  exists w. rewrite <- app_assoc. cbn [app]. eauto.
Qed.
Lemma dialect_93 x bx : dialect x bx -> first_of bx (fun c => wsb c = false /\ c <> 93).
Proof.
  intros Hx. pose proof (dialect_first _ _ Hx) as (c & r & -> & Hc). exists c, r. repeat split; auto.
  intros ->. pose proof (js_value_full (env0 false) x (93 :: r) [32] Hx) as Hj.
  assert (Hf : follows x (93 :: r) [32]).
  { split; [intros _; exists 32, []; split; auto; unfold number_byte, digit; simpl; lia|discriminate]. }
  specialize (Hj Hf). cbn [app] in Hj. unfold js_fuel in Hj. rewrite Nat.add_comm in Hj.
  cbn [Nat.add] in Hj. rewrite js_value_S in Hj. cbn -[parseJsonNum] in Hj.
  unfold parseJsonNum in Hj. cbn -[inf_nan] in Hj. unfold inf_nan in Hj.
  revert Hj. destruct (_ <=? _); [|discriminate].
  destruct (fold_is _ _) eqn:H1; [|destruct (fold_is _ _) eqn:H2; [|discriminate]]; intros _.
  - apply beq_eq in H1. discriminate H1.
  - apply beq_eq in H2. discriminate H2.
Qed.
Lemma elems_head xs b : delems xs b -> exists w c r, ws w /\ wsb c = false /\ c <> 93 /\ b = w ++ c :: r.
Proof.
  intros [w1 x bx w2 Hw1 Hx Hw2|w1 x bx w2 xs' bb Hw1 Hx Hw2 _];
    destruct (dialect_93 _ _ Hx) as (c & r & -> & Hc1 & Hc2); exists w1, c.
  - exists (r ++ w2). auto.
  - rewrite <- !app_assoc. cbn [app]. eexists; repeat split; auto.
Qed.

(** Leading whitespace can be dropped. *)
Lemma ws_head_eq w1 w2 c1 c2 r1 r2 : ws w1 -> ws w2 -> wsb c1 = false -> wsb c2 = false ->
  w1 ++ c1 :: r1 = w2 ++ c2 :: r2 -> c1 :: r1 = c2 :: r2.
Proof.
  intros H1 H2 Hc1 Hc2 H. apply (f_equal drop_ws) in H. rewrite !drop_ws_skip in H by auto. auto.
Qed.
Lemma member_strip k x w r : ws w -> dmember k x (w ++ 34 :: r) -> dmember k x (34 :: r).
Proof.
  intros Hw Hm. remember (w ++ 34 :: r) as b eqn:Hb.
  destruct Hm as [w1 k w2 w3 x bx w4 H1 H2 H3 H4 H5 H6]. cbn [app] in Hb.
  apply ws_head_eq in Hb; auto. rewrite <- Hb.
  apply (member_intro d_scalar d_key [] k w2 w3 x bx w4); auto. constructor.
Qed.
Lemma members_strip ms w r : ws w -> dmembers ms (w ++ 34 :: r) -> dmembers ms (34 :: r).
Proof.
  intros Hw Hm. remember (w ++ 34 :: r) as b eqn:Hb. destruct Hm as [k x b H|k x b ms bm H Hms].
  - subst b. apply members_one. eapply member_strip; eauto.
  - destruct (member_head _ _ _ H) as (w' & r' & Hw' & ->). rewrite <- app_assoc in Hb. cbn [app] in Hb.
    apply ws_head_eq in Hb; auto. rewrite <- Hb.
    apply (members_more d_scalar d_key k x (34 :: r') ms bm); auto. eapply member_strip; eauto.
Qed.
Lemma elems_strip xs w c r : ws w -> wsb c = false -> delems xs (w ++ c :: r) -> delems xs (c :: r).
Proof.
  intros Hw Hc Hm. remember (w ++ c :: r) as b eqn:Hb.
  destruct Hm as [w1 x bx w2 H1 Hx H2|w1 x bx w2 xs bb H1 Hx H2 Hxs];
    destruct (dialect_first _ _ Hx) as (c' & r' & -> & Hc').
  - cbn [app] in Hb. apply ws_head_eq in Hb; auto. rewrite <- Hb.
    apply (elems_one d_scalar d_key [] x (c' :: r') w2); auto. constructor.
  - rewrite <- !app_assoc in Hb. cbn [app] in Hb. apply ws_head_eq in Hb; auto. rewrite <- Hb.
    replace (c' :: r' ++ w2 ++ 44 :: bb) with (([] ++ (c' :: r') ++ w2) ++ [44] ++ bb) by (apps; auto).
    apply (elems_more d_scalar d_key [] x (c' :: r') w2); auto. constructor.
Qed.

Definition is_obj (v : value) : Prop := match v with VObject _ _ => True | _ => False end.
Definition is_arr (v : value) : Prop := match v with VArray _ => True | _ => False end.

Lemma load_start E r w bt rest : ws w -> bt <> [] -> (exists c t, bt = c :: t /\ wsb c = false) ->
  LoadFromJson E r (w ++ bt ++ rest) = parseJson2Value E (bt ++ rest) (clear_value r).
Proof.
  intros Hw Hne (c & t & -> & Hc). unfold LoadFromJson.
  rewrite skipWB_fst, drop_ws_first; [reflexivity|auto|]. exists c, t; auto.
Qed.
Lemma load_object E r w ms bt rest : ws w -> dialect (JObject ms) bt -> is_obj r ->
  LoadFromJson E r (w ++ bt ++ rest) = (tree_of E (JObject ms), Ok tt).
Proof.
  intros Hw Hd Hr. rewrite load_start; eauto using dialect_nonempty.
  2: { destruct (dialect_first _ _ Hd) as (c & t & ? & ?); eauto. }
  destruct r; try contradiction. cbn [clear_value].
  inversion Hd as [t b H|w0 Hw0| |ms' b H|]; subst; [inversion H| |].
  - apps. unfold parseJson2Value. change (123 =? 123) with true. cbn match.
    rewrite skipWB_eq, drop_ws_skip by auto. reflexivity.
  - apps. unfold parseJson2Value. change (123 =? 123) with true. cbn match.
    destruct (members_head _ _ H) as (w1 & r1 & Hw1 & Hb).
    assert (Hdr : drop_ws (b ++ 125 :: rest) = 34 :: r1 ++ 125 :: rest)
      by (rewrite Hb; apps; apply drop_ws_skip; auto).
    rewrite skipWB_eq, Hdr. change (34 =? 125) with false. cbn match.
    assert (Hp : dmembers ms (34 :: r1)) by (eapply members_strip; [exact Hw1|rewrite <- Hb; auto]).
    pose proof (load_members_ok E ms (34 :: r1) Hp (js_fuel (34 :: r1 ++ 125 :: rest)) rest []) as Hl.
    cbn [app] in Hl. rewrite Hl; [reflexivity|]. unfold js_fuel. cbn [List.length].
    rewrite app_length. lia.
Qed.
Lemma load_array E r w xs bt rest : ws w -> dialect (JArray xs) bt -> is_arr r ->
  LoadFromJson E r (w ++ bt ++ rest) = (tree_of E (JArray xs), Ok tt).
Proof.
  intros Hw Hd Hr. rewrite load_start; eauto using dialect_nonempty.
  2: { destruct (dialect_first _ _ Hd) as (c & t & ? & ?); eauto. }
  destruct r; try contradiction. cbn [clear_value].
  inversion Hd as [t b H| |w0 Hw0| |xs' b H]; subst; [inversion H| |].
  - apps. unfold parseJson2Value. change (91 =? 123) with false. change (91 =? 91) with true. cbn match.
    rewrite skipWB_eq, drop_ws_skip by auto. reflexivity.
  - apps. unfold parseJson2Value. change (91 =? 123) with false. change (91 =? 91) with true. cbn match.
    destruct (elems_head _ _ H) as (w1 & c & r1 & Hw1 & Hc & Hc93 & Hb).
    assert (Hdr : drop_ws (b ++ 93 :: rest) = c :: r1 ++ 93 :: rest)
      by (rewrite Hb; apps; apply drop_ws_skip; auto).
    rewrite skipWB_eq, Hdr. destruct (Z.eqb_spec c 93); [congruence|].
    assert (Hp : delems xs (c :: r1)) by (eapply elems_strip; [exact Hw1|auto|rewrite <- Hb; auto]).
    pose proof (load_elems_ok E xs (c :: r1) Hp (js_fuel (c :: r1 ++ 93 :: rest)) rest []) as Hl.
    cbn [app] in Hl. rewrite Hl; [reflexivity|]. unfold js_fuel. cbn [List.length].
    rewrite app_length. lia.
Qed.

(** Tokens that are neither numbers nor containers. *)
Definition simple_tree (t : jtree) : Prop :=
  match t with JObject _ | JArray _ | JNumber _ => False | _ => True end.
Lemma load_simple E r w t bt rest : ws w -> dialect t bt -> simple_tree t -> follows t bt rest ->
  LoadFromJson E r (w ++ bt ++ rest) = (tree_of E t, Ok tt).
Proof.
  intros Hw Hd Hs Hf. rewrite load_start; eauto using dialect_nonempty.
  2: { destruct (dialect_first _ _ Hd) as (c & t0 & ? & ?); eauto. }
  pose proof (js_value_full E t bt rest Hd Hf) as Hj.
  unfold js_fuel in Hj. rewrite Nat.add_comm in Hj. cbn [Nat.add] in Hj. rewrite js_value_S in Hj.
  destruct Hd as [t bt H| | | |]; try contradiction.
  set (v := clear_value r). clearbody v.
  destruct (bt ++ rest) as [|c b] eqn:Hb; [discriminate|].
  unfold parseJson2Value.
  assert (Hc : c <> 123 /\ c <> 91).
  { destruct (d_scalar_first _ _ H) as (c0 & t0 & -> & _). cbn [app] in Hb. injection Hb as <- _.
    clear - H Hs. split; intros ->; inversion H; subst; try contradiction;
      match goal with
      | H : sign ?s |- _ => destruct H as [->|[->| ->]]; try discriminate
      end;
      match goal with
      | H : spells _ 105 _ _ |- _ => destruct (spells_inf_hd _ H) as (x' & y & z & -> & Hx)
      | H : spells _ 110 _ _ |- _ => destruct (spells_nan_hd _ H) as (x' & y & z & -> & Hx)
      end; simpl in *; match goal with H : _ :: _ = _ :: _ |- _ => injection H as H _; lia end. }
  destruct (Z.eqb_spec c 123); [tauto|]. destruct (Z.eqb_spec c 91); [tauto|].
  destruct (c =? 34).
  { apply bind_ok in Hj as ([ss tl] & Hp & Hj). rewrite Hp. injection Hj as Hj _. congruence. }
  destruct (c =? 116).
  { destruct (_ || _); [discriminate|]. apply (f_equal (fun r => match r with Ok (x, _) => x | _ => v end)) in Hj. congruence. }
  destruct (c =? 102).
  { destruct (_ || _); [discriminate|]. apply (f_equal (fun r => match r with Ok (x, _) => x | _ => v end)) in Hj. congruence. }
  destruct (c =? 110).
  { destruct (_ || _); [destruct (_ && _); [|discriminate]|];
      apply (f_equal (fun r => match r with Ok (x, _) => x | _ => v end)) in Hj; congruence. }
  unfold parseJsonNum in Hj. unfold parseJsonNum2V.
  destruct (num_end (c :: b)) as [i|]; [|exfalso; eapply tree_not_nil; symmetry; injection Hj as Hj _; exact Hj].
  destruct (_ || _).
  - rewrite Hj. reflexivity.
  - exfalso. destruct H; try contradiction; cbn [tree_of] in Hj; destruct (existsb _ _); try discriminate Hj;
      destruct (x_jsontime E raw); discriminate Hj.
Qed.

(** Numbers always arrive as integers, and only when something follows them. *)
Lemma load_number E r w lex c rest : ws w -> number lex -> ~ number_byte c ->
  LoadFromJson E r (w ++ lex ++ c :: rest) = (set_int (clear_value r) (x_str2int E lex 0), Ok tt).
Proof.
  intros Hw Hl Hc. assert (Hd : dialect (JNumber lex) lex) by (constructor; constructor; auto).
  rewrite load_start; eauto using dialect_nonempty.
  2: { destruct (dialect_first _ _ Hd) as (c0 & t0 & ? & ?); eauto. }
  destruct Hl as (H1 & H2 & H3 & H4). destruct lex as [|x l]; [congruence|]. cbn [app].
  assert (Hx : number_byte x) by (inversion H4; auto). unfold parseJson2Value.
  unfold number_byte, digit in Hx. simpl in Hx.
  destruct (Z.eqb_spec x 123); [lia|]. destruct (Z.eqb_spec x 91); [lia|].
  destruct (Z.eqb_spec x 34); [lia|]. destruct (Z.eqb_spec x 116); [lia|].
  destruct (Z.eqb_spec x 102); [lia|]. destruct (Z.eqb_spec x 110); [lia|].
  unfold parseJsonNum2V. change (x :: l ++ c :: rest) with ((x :: l) ++ c :: rest).
  rewrite num_end_app by auto. rewrite firstn_app_exact by auto.
  replace ((List.length (x :: l) =? 0)%nat || ((List.length (x :: l) =? 1)%nat && signed_start ((x :: l) ++ c :: rest))) with false; [reflexivity|].
  cbn [List.length app signed_start]. destruct l as [|y l]; [|reflexivity].
  destruct (Z.eqb_spec x 45); [subst; congruence|]. destruct (Z.eqb_spec x 43); [subst; congruence|]. reflexivity.
Qed.

Definition is_vnum (v : value) : Prop := match v with VInt _ _ | VFloat _ => True | _ => False end.
Lemma load_agrees E r b v : NewValueFromJson E b = Ok v ->
  (is_obj v -> is_obj r) -> (is_arr v -> is_arr r) -> ~ is_vnum v -> v <> VNilP ->
  LoadFromJson E r b = (v, Ok tt).
Proof.
  intros H Ho Ha Hn Hv. apply accepted_iff in H; auto.
  destruct H as (w1 & t & bt & w2 & -> & Hw1 & Hd & Hw2 & Hnum & ->).
  assert (Hs : simple_tree t -> LoadFromJson E r (w1 ++ bt ++ w2) = (tree_of E t, Ok tt)).
  { intros Hs. apply load_simple; auto. split; [destruct t; contradiction|].
    intros _. destruct Hw2 as [|c w2 Hc Hw2]; cbn [hd]; [discriminate|]. simpl in Hc. lia. }
  destruct t; try (apply Hs; exact I).
  - exfalso. apply Hn. cbn [tree_of]. destruct (in_dec Z.eq_dec 46 lex); exact I.
  - apply load_object; auto. apply Ho; exact I.
  - apply load_array; auto. apply Ha; exact I.
Qed.

(** A load never panics and terminates. *)
Lemma js_value_good E b : good b (js_value E (js_fuel b) b).
Proof. apply (proj1 (parse_total E (js_fuel b))). unfold js_fuel. lia. Qed.
Lemma load_members_total E f : forall b acc, (List.length b < f)%nat ->
  match snd (load_members E f b acc) with Ok _ | Err _ => True | _ => False end.
Proof.
  induction f as [|f IH]; intros b acc Hf; [lia|]. rewrite load_members_S. cbn zeta.
  rewrite (skipWB_eq b). pose proof (drop_ws_length b) as Hl. destruct (drop_ws b) as [|c r]; [exact I|].
  destruct (negb _); [exact I|].
  destruct (parse_key_cases r) as [(k & t & Hk)|[_ Hk]]; rewrite Hk; [|exact I].
  apply parse_key_inv in Hk as [_ ->].
  rewrite (skipWB_eq t). pose proof (drop_ws_length t) as Hl2. destruct (drop_ws t) as [|c3 r3]; [exact I|].
  destruct (negb _); [exact I|]. rewrite skipWB_fst.
  pose proof (js_value_good E (drop_ws r3)) as Hg. pose proof (drop_ws_length r3) as Hl3.
  destruct (js_value E _ (drop_ws r3)) as [[v b5]|e| |] eqn:Hj; try contradiction; [|exact I].
  apply (proj1 (sound E _)) in Hj. apply value_sound_suffix in Hj as [_ Hj].
  rewrite (skipWB_eq b5). pose proof (drop_ws_length b5) as Hl5. destruct (drop_ws b5) as [|c6 r6]; [exact I|].
  destruct (c6 =? 44); [|destruct (c6 =? 125); exact I]. apply IH.
  cbn [List.length] in *. rewrite app_length in Hl. cbn [List.length] in *. lia.
Qed.
Lemma load_elems_total E f : forall b acc, (List.length b < f)%nat ->
  match snd (load_elems E f b acc) with Ok _ | Err _ => True | _ => False end.
Proof.
  induction f as [|f IH]; intros b acc Hf; [lia|]. rewrite load_elems_S. cbn zeta.
  rewrite skipWB_fst. pose proof (drop_ws_length b) as Hl.
  pose proof (js_value_good E (drop_ws b)) as Hg.
  destruct (js_value E _ (drop_ws b)) as [[v b5]|e| |] eqn:Hj; try contradiction; [|exact I].
  apply (proj1 (sound E _)) in Hj. apply value_sound_suffix in Hj as [_ Hj].
  rewrite (skipWB_eq b5). pose proof (drop_ws_length b5) as Hl5. destruct (drop_ws b5) as [|c6 r6]; [exact I|].
  destruct (c6 =? 44); [|destruct (c6 =? 93); exact I]. apply IH.
  cbn [List.length] in *. lia.
Qed.
Lemma load_total E r b : match snd (LoadFromJson E r b) with Ok _ | Err _ => True | _ => False end.
Proof.
  unfold LoadFromJson. rewrite skipWB_fst. destruct (drop_ws b) as [|c t]; [exact I|].
  set (v := clear_value r). clearbody v. unfold parseJson2Value.
  destruct (c =? 123).
  { rewrite skipWB_eq. destruct (drop_ws t) as [|c1 t1]; [exact I|]. destruct (c1 =? 125); [exact I|].
    pose proof (load_members_total E (js_fuel (c1 :: t1)) (c1 :: t1) []) as H.
    destruct (load_members _ _ _ _). apply H. unfold js_fuel. lia. }
  destruct (c =? 91).
  { rewrite skipWB_eq. destruct (drop_ws t) as [|c1 t1]; [exact I|]. destruct (c1 =? 93); [exact I|].
    pose proof (load_elems_total E (js_fuel (c1 :: t1)) (c1 :: t1) []) as H.
    destruct (load_elems _ _ _ _). apply H. unfold js_fuel. lia. }
  destruct (c =? 34).
  { destruct (parse_string_cases t) as [(s & t1 & Hp)|Hp]; rewrite Hp; exact I. }
  destruct (c =? 116); [destruct (_ || _); exact I|].
  destruct (c =? 102); [destruct (_ || _); exact I|].
  destruct (c =? 110); [destruct (_ || _); [destruct (_ && _)|]; exact I|].
  destruct (parseJsonNum2V E (c :: t) v) as [v' [e|]]; exact I.
Qed.

(** A load that fails inside the value of a member leaves the member without a value, and
    writing the receiver panics. *)
Lemma load_broken E r w1 k w2 w3 bad : is_obj r -> ws w1 -> ~ In 34 k -> ws w2 -> ws w3 ->
  (forall v rest, js_value E (js_fuel (drop_ws bad)) (drop_ws bad) <> Ok (v, rest)) ->
  exists e' r', LoadFromJson E r ([123] ++ w1 ++ [34] ++ k ++ [34] ++ w2 ++ [58] ++ w3 ++ bad) = (r', Err e') /\
    forall st dt dst, Value2Json E st dt r' dst = Panic.
Proof.
  intros Hr Hw1 Hk Hw2 Hw3 Hnv. unfold LoadFromJson. cbn [app]. rewrite skipWB_fst. cbn [drop_ws].
  change (wsb 123) with false. cbn match. destruct r; try contradiction. cbn [clear_value].
  unfold parseJson2Value. change (123 =? 123) with true. cbn match.
  rewrite skipWB_eq, drop_ws_skip by auto. change (34 =? 125) with false. cbn match.
  unfold js_fuel at 1. rewrite Nat.add_comm. cbn [Nat.add]. rewrite load_members_S. cbn zeta.
  cbn [skipWB]. change (wsb 34) with false. cbn match. change (negb (34 =? 34)) with false. cbn match.
  rewrite parse_key_ok by auto. rewrite (skipWB_eq (w2 ++ _)), drop_ws_skip by auto.
  change (negb (58 =? 58)) with false. cbn match. rewrite skipWB_fst, drop_ws_app by auto.
  pose proof (js_value_good E (drop_ws bad)) as Hg.
  destruct (js_value E _ (drop_ws bad)) as [[v rest]|e'| |]; [exfalso; eapply Hnv; eauto| |contradiction|contradiction].
  exists e'. eexists. split; [reflexivity|]. intros st dt dst. cbn [with_pairs app].
  rewrite Value2Json_obj. reflexivity.
Qed.

(** ** Strings *)
Lemma string_doc E w b n : ws w -> closing b n -> (forall m, (m < n)%nat -> ~ closing b m) ->
  (ws (skipn (n + 1) b) ->
     NewValueFromJson E (w ++ 34 :: b) = Ok (tree_of E (JString (firstn n b)))) /\
  (~ ws (skipn (n + 1) b) -> exists i, NewValueFromJson E (w ++ 34 :: b) =
     Err (ErrJson JET_Invalidate i (skipn (n + 1) b))).
Proof.
  intros Hw Hc Hm. destruct (closing_content n b n) as (H1 & H2 & _); [lia|split; auto|].
  assert (Hd : dialect (JString (firstn n b)) ([34] ++ firstn n b ++ [34])) by (constructor; constructor; auto).
  assert (Ht : w ++ 34 :: b = w ++ ([34] ++ firstn n b ++ [34]) ++ skipn (n + 1) b).
  { f_equal. cbn [app]. rewrite <- app_assoc. cbn [app]. rewrite <- H2. reflexivity. }
  rewrite Ht, (accepts_value E w _ (skipn (n + 1) b) _ Hw Hd).
  - rewrite <- drop_ws_nil. destruct (drop_ws (skipn (n + 1) b)); split; try tauto; try discriminate; eauto.
  - split; [contradiction|]. discriminate.
Qed.
Lemma string_unterminated E w b : ws w -> (forall n, ~ closing b n) ->
  exists e, NewValueFromJson E (w ++ 34 :: b) = Err e.
Proof.
  intros Hw Hc. unfold NewValueFromJson. rewrite skipWB_fst, drop_ws_skip by auto.
  unfold js_fuel. rewrite Nat.add_comm. cbn [Nat.add]. rewrite js_value_S.
  change (34 =? 123) with false. change (34 =? 91) with false. change (34 =? 34) with true. cbn match.
  pose proof (parseJsonString_spec b) as Hp. destruct (parseJsonString b) as [[s t]|e| |]; try contradiction.
  - destruct Hp as (n & [Hn _] & _). exfalso; eapply Hc; eauto.
  - cbn [bind]. eauto.
Qed.

(** ** Keys *)
Lemma key_error E k : k <> [] -> ~ In 34 k ->
  exists e, NewValueFromJson E ([123; 34] ++ k) = Err e /\ error_string_ok e = false.
Proof.
  intros Hne Hk. unfold NewValueFromJson. cbn [app]. rewrite skipWB_fst. cbn [drop_ws].
  change (wsb 123) with false. cbn match. unfold js_fuel. rewrite Nat.add_comm. cbn [Nat.add].
  rewrite js_value_S. change (123 =? 123) with true. cbn match. cbn [skipWB].
  change (wsb 34) with false. cbn match. change (34 =? 125) with false. cbn match.
  rewrite js_members_S. cbn [skipWB]. change (wsb 34) with false. cbn match.
  change (negb (34 =? 34)) with false. cbn match. rewrite parseJsonKey_spec.
  apply index_byte_none in Hk. rewrite Hk. cbn [bind]. eexists; split; [reflexivity|].
  cbn [error_string_ok]. destruct k; [congruence|]. rewrite zlen_cons. pose proof (zlen_nonneg k).
  change (zlen (@nil Z)) with 0.
  destruct (Z.ltb_spec (1 + zlen k + 32) 0); [lia|].
  destruct (Z.leb_spec (1 + zlen k) 0); [lia|]. apply andb_false_r.
Qed.
Lemma escaped_quote_key E k1 k2 b : ~ In 34 k1 -> ~ In (hd 34 k2) [32; 9; 10; 13; 58] ->
  exists e, NewValueFromJson E ([123; 34] ++ k1 ++ [92; 34] ++ k2 ++ [34; 58] ++ b) = Err e.
Proof.
  intros Hk Hc. unfold NewValueFromJson. cbn [app]. rewrite skipWB_fst. cbn [drop_ws].
  change (wsb 123) with false. cbn match. unfold js_fuel. rewrite Nat.add_comm. cbn [Nat.add].
  rewrite js_value_S. change (123 =? 123) with true. cbn match. cbn [skipWB].
  change (wsb 34) with false. cbn match. change (34 =? 125) with false. cbn match.
  rewrite js_members_S. cbn [skipWB]. change (wsb 34) with false. cbn match.
  change (negb (34 =? 34)) with false. cbn match.
  replace (k1 ++ 92 :: 34 :: k2 ++ 34 :: 58 :: b) with ((k1 ++ [92]) ++ 34 :: k2 ++ 34 :: 58 :: b)
    by (apps; auto).
  rewrite parse_key_ok; [|rewrite in_app_iff; intros [Hi|[Hi|[]]]; [auto|discriminate]]. cbn [bind].
  assert (Hd : exists c r, k2 ++ 34 :: 58 :: b = c :: r /\ ~ In c [32; 9; 10; 13; 58])
    by (destruct k2; cbn [app hd] in *; eauto).
  destruct Hd as (c & r & Hd & Hn). rewrite Hd. cbn [skipWB].
  destruct (wsb c) eqn:Hw; [apply wsb_spec in Hw; simpl in *; lia|].
  destruct (Z.eqb_spec c 58); [simpl in Hn; lia|]. cbn [negb bind]. eexists. reflexivity.
Qed.

(** ** Floating point *)
Lemma float_text E st dt v d : (v = VDouble d \/ exists r, v = VFloat r /\ d = x_f32_to_f64 E (r mod 2 ^ 32)) ->
  number (x_fmt_f64 E d) ->
  exists out, Value2Json E st dt (VArray [v]) [] = Ok out /\
   NewValueFromJson E out = Ok (VArray [
     if in_dec Z.eq_dec 46 (x_fmt_f64 E d)
     then VFloat (x_f64_to_f32 E (x_str2f64 E (x_fmt_f64 E d) 0))
     else VInt 0 (x_str2int E (x_fmt_f64 E d) 0)]).
Proof.
  intros Hv Hn.
  assert (Hw : writable E (esc_of st) dt (VArray [v])).
  { destruct Hv as [->|(r & -> & ->)]; cbn; auto. }
  destruct (written E st dt _ Hw) as [(b & Hb & Hd) _]. exists b. split; [apply Hb|].
  apply accepted_iff; [discriminate|].
  exists [], (jtree_of E (esc_of st) dt (VArray [v])), b, []. rewrite app_nil_r.
  repeat split; auto; try constructor; try contradiction.
  destruct Hv as [->|(r & -> & ->)]; reflexivity.
Qed.
