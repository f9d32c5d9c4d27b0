(** The JSON parser accepts exactly the dialect of JsonSpec.v. *)
From Coq Require Import String.
From Verif Require Import Base Values Tactics JsonModel JsonSpec JsonLex.

Lemma js_value_S E f b : js_value E (S f) b =
  match b with
  | [] => jerr JET_NoObjBack 0 []
  | c :: r =>
      if c =? 123 then
        match skipWB r with
        | ([], sk) => jerr JET_NoObjBack sk r
        | ((c1 :: t) as b1, _) =>
            if c1 =? 125 then Ok (VObject false [], t) else js_members E f b1 []
        end
      else if c =? 91 then
        match skipWB r with
        | ([], sk) => jerr JET_NoArrBack sk r
        | ((c1 :: t) as b1, _) =>
            if c1 =? 93 then Ok (VArray [], t) else js_elems E f b1 []
        end
      else if c =? 34 then
        do (ss, t) <- parseJsonString r; Ok (json_string_value E ss, t)
      else if c =? 116 then
        if (zlen b <? 4) || negb (beq (firstn 4 b) (bs "true")) then Err ErrJsonFmt
        else Ok (VTrue, skipn 4 b)
      else if c =? 102 then
        if (zlen b <? 5) || negb (beq (firstn 5 b) (bs "false")) then Err ErrJsonFmt
        else Ok (VFalse, skipn 5 b)
      else if c =? 110 then
        if (zlen b <? 4) || negb (beq (firstn 4 b) (bs "null")) then
          if (3 <=? zlen b) && negb (beq (firstn 3 b) (bs "nan"))
          then Ok (VNan, skipn 3 b)
          else Err ErrJsonFmt
        else Ok (VNull, skipn 4 b)
      else parseJsonNum E b
  end.
Proof. reflexivity. Qed.
Lemma js_members_S E f b acc : js_members E (S f) b acc =
  match skipWB b with
  | ([], sk) => jerr JET_NoKeyStart sk b
  | (c :: r, sk) =>
      if negb (c =? 34) then jerr JET_NoKeyStart sk b
      else
        do (k, b2) <- parseJsonKey r;
        match skipWB b2 with
        | ([], sk) => jerr JET_NoKVSplit sk b2
        | (c3 :: r3, sk) =>
            if negb (c3 =? 58) then jerr JET_NoKVSplit sk b2
            else
              do (v, b5) <- js_value E f (fst (skipWB r3));
              match skipWB b5 with
              | ([], sk) => jerr JET_NoObjBack sk b5
              | (c6 :: r6, sk) =>
                  if c6 =? 44 then js_members E f r6 (acc ++ [(k, v)])
                  else if c6 =? 125 then Ok (VObject false (acc ++ [(k, v)]), r6)
                  else jerr JET_NoValueSplit sk b5
              end
        end
  end.
Proof. reflexivity. Qed.
Lemma js_elems_S E f b acc : js_elems E (S f) b acc =
  do (v, b2) <- js_value E f (fst (skipWB b));
  match skipWB b2 with
  | ([], sk) => jerr JET_NoArrBack sk b2
  | (c :: r, sk) =>
      if c =? 44 then js_elems E f r (acc ++ [v])
      else if c =? 93 then Ok (VArray (acc ++ [v]), r)
      else jerr JET_NoValueSplit sk b2
  end.
Proof. reflexivity. Qed.

Notation dmembers := (members d_scalar d_key).
Notation delems := (elems d_scalar d_key).
Notation dmember := (member d_scalar d_key).
Definition pair_tree (E : env) (kx : bytes * jtree) : bytes * value := (fst kx, tree_of E (snd kx)).

Ltac apps := repeat (progress (rewrite <- ?app_assoc; cbn [app])).
Ltac lens H := repeat (progress (rewrite ?app_length in H; cbn [List.length] in H));
  repeat (progress (rewrite ?app_length; cbn [List.length])); lia.
Ltac apps_in H := repeat (progress (rewrite <- ?app_assoc in H; cbn [app] in H)).

(** ** Shape of texts *)
Lemma spells_inf_hd w : spells w 105 110 102 -> exists x y z, w = [x; y; z] /\ (x = 105 \/ x = 73).
Proof. intros (x & y & z & -> & Hx & _). unfold up in Hx. exists x, y, z. split; auto; lia. Qed.
Lemma spells_nan_hd w : spells w 110 97 110 ->
  exists x y z, w = [x; y; z] /\ (x = 110 \/ x = 78).
Proof. intros (x & y & z & -> & Hx & _). unfold up in Hx. exists x, y, z. split; auto; lia. Qed.

Definition first_of (b : bytes) (P : Z -> Prop) : Prop := exists c r, b = c :: r /\ P c.

Lemma d_scalar_first t b : d_scalar t b -> first_of b (fun c => wsb c = false).
Proof.
  intros H. destruct H as [raw H|lex H| | | |s w Hs Hw|s w Hs Hw H|a b H];
    try (eexists _, _; split; [reflexivity|reflexivity]).
  - destruct H as (H1 & _ & _ & H). destruct lex as [|c r]; [congruence|].
    exists c, r. split; auto. inversion H; subst. unfold number_byte, digit, wsb in *. simpl in *. lia.
  - destruct (spells_inf_hd _ Hw) as (x & y & z & -> & Hx).
    destruct Hs as [->|[->| ->]]; eexists _, _; (split; [reflexivity|]); [|reflexivity..].
    unfold wsb; lia.
  - destruct (spells_nan_hd _ Hw) as (x & y & z & -> & Hx).
    destruct Hs as [->|[->| ->]]; eexists _, _; (split; [reflexivity|]); [|reflexivity..].
    unfold wsb; lia.
Qed.
Lemma dialect_first t b : dialect t b -> first_of b (fun c => wsb c = false).
Proof.
  intros H. destruct H; [eapply d_scalar_first; eauto|..];
    eexists _, _; (split; [reflexivity|reflexivity]).
Qed.
Lemma dialect_nonempty t b : dialect t b -> b <> [].
Proof. intros H. destruct (dialect_first _ _ H) as (c & r & -> & _). discriminate. Qed.
Lemma d_key_content k : d_key k <-> ~ In 34 k.
Proof. reflexivity. Qed.

(** ** Completeness *)
Lemma firstn_app_exact {A} n (p r : list A) : List.length p = n -> firstn n (p ++ r) = p.
Proof. intros <-. rewrite firstn_app, firstn_all, Nat.sub_diag, firstn_O, app_nil_r. auto. Qed.
Lemma skipn_app_exact {A} n (p r : list A) : List.length p = n -> skipn n (p ++ r) = r.
Proof. intros <-. rewrite skipn_app, skipn_all, Nat.sub_diag. auto. Qed.

Lemma inf_nan_ok w rest :
  (spells w 105 110 102 -> inf_nan (w ++ rest) = Ok (VInf, rest)) /\
  (spells w 110 97 110 -> inf_nan (w ++ rest) = Ok (VNan, rest)).
Proof.
  assert (Hl : forall a b c, spells w a b c -> List.length w = 3%nat)
    by (intros a b c (x & y & z & -> & _); auto).
  split; intros Hw; unfold inf_nan; pose proof (Hl _ _ _ Hw) as H3;
    rewrite firstn_app_exact, skipn_app_exact by auto;
    (replace (3 <=? zlen (w ++ rest)) with true
      by (rewrite zlen_app; pose proof (zlen_nonneg rest); unfold zlen at 1; lia)).
  - change (bs "inf") with [105; 110; 102]. rewrite (proj2 (fold_spells w 105 110 102 ltac:(lia) ltac:(lia) ltac:(lia)) Hw).
    auto.
  - change (bs "inf") with [105; 110; 102]. change (bs "nan") with [110; 97; 110].
    rewrite (proj2 (fold_spells w 110 97 110 ltac:(lia) ltac:(lia) ltac:(lia)) Hw).
    destruct (fold_is w [105; 110; 102]) eqn:Hi; auto.
    apply fold_spells in Hi; [|lia..].
    destruct (spells_inf_hd _ Hi) as (x & y & z & -> & Hx).
    destruct Hw as (x' & y' & z' & He & Hx' & _). injection He as <- <- <-. unfold up in *. lia.
Qed.

(** A sign, then a byte that is not part of a number. *)
Lemma num_signed E s c r : sign s -> ~ number_byte c -> parseJsonNum E (s ++ c :: r) = inf_nan (c :: r).
Proof.
  intros Hs Hc. unfold parseJsonNum. rewrite num_end_app; auto.
  - destruct Hs as [->|[->| ->]]; reflexivity.
  - destruct Hs as [->|[->| ->]]; repeat constructor; right; simpl; auto.
Qed.
Lemma num_plain E lex c r : number lex -> ~ number_byte c ->
  parseJsonNum E (lex ++ c :: r) = Ok (tree_of E (JNumber lex), c :: r).
Proof.
  intros (H1 & H2 & H3 & Hn) Hc. unfold parseJsonNum. rewrite num_end_app by auto.
  rewrite firstn_app_exact, skipn_app_exact by auto. cbn [tree_of].
  replace ((List.length lex =? 0)%nat || ((List.length lex =? 1)%nat && signed_start (lex ++ c :: r))) with false.
  - destruct (in_dec Z.eq_dec 46 lex) as [Hd|Hd].
    + rewrite (proj2 (dot_spec lex)); auto.
    + destruct (existsb (fun c => c =? 46) lex) eqn:He; auto. apply dot_spec in He. tauto.
  - destruct lex as [|x [|y lex]]; [congruence| |reflexivity].
    simpl. symmetry. assert (x <> 45) by congruence. assert (x <> 43) by congruence. lia.
Qed.

Lemma word_ok (w b : bytes) (n : Z) rest : zlen w = n -> b = w ++ rest ->
  (zlen b <? n) || negb (beq (firstn (Z.to_nat n) b) w) = false.
Proof.
  intros Hn ->. rewrite firstn_app_exact by (unfold zlen in Hn; lia). rewrite beq_refl.
  rewrite zlen_app. pose proof (zlen_nonneg rest). lia.
Qed.

Lemma letter_not_number x : x = 105 \/ x = 73 \/ x = 110 \/ x = 78 -> ~ number_byte x.
Proof. unfold number_byte, digit; simpl; lia. Qed.

Lemma scalar_ok E f t b rest : d_scalar t b -> follows t b rest ->
  js_value E (S f) (b ++ rest) = Ok (tree_of E t, rest).
Proof.
  intros H Hf. rewrite js_value_S.
  destruct H as [raw H|lex H| | | |s w Hs Hw|s w Hs Hw Hx|a b H].
  - cbn [app]. cbn [Z.eqb]. rewrite <- app_assoc. cbn [app]. change (34 =? 123) with false.
    change (34 =? 91) with false. change (34 =? 34) with true. cbn match.
    rewrite parse_string_ok by auto. reflexivity.
  - destruct Hf as [Hf _]. destruct (Hf I) as (c & r & -> & Hc).
    rewrite num_plain by auto.
    destruct H as (H1 & _ & _ & H). destruct lex as [|x lex]; [congruence|]. cbn [app].
    inversion H as [|? ? Hx _]; subst. unfold number_byte, digit in Hx. simpl in Hx.
    destruct (Z.eqb_spec x 123); [lia|]. destruct (Z.eqb_spec x 91); [lia|].
    destruct (Z.eqb_spec x 34); [lia|]. destruct (Z.eqb_spec x 116); [lia|].
    destruct (Z.eqb_spec x 102); [lia|]. destruct (Z.eqb_spec x 110); [lia|]. auto.
  - pose proof (word_ok (bs "true") _ 4 rest eq_refl eq_refl) as Hw. change (Z.to_nat 4) with 4%nat in Hw.
    rewrite Hw. reflexivity.
  - pose proof (word_ok (bs "false") _ 5 rest eq_refl eq_refl) as Hw. change (Z.to_nat 5) with 5%nat in Hw.
    rewrite Hw. reflexivity.
  - pose proof (word_ok (bs "null") _ 4 rest eq_refl eq_refl) as Hw. change (Z.to_nat 4) with 4%nat in Hw.
    rewrite Hw. reflexivity.
  - destruct (inf_nan_ok w rest) as [Hi _]. specialize (Hi Hw).
    destruct (spells_inf_hd _ Hw) as (x & y & z & -> & Hx).
    assert (Hp : parseJsonNum E ((s ++ [x; y; z]) ++ rest) = Ok (VInf, rest)).
    { rewrite <- app_assoc. cbn [app] in *. rewrite num_signed; auto. apply letter_not_number; tauto. }
    rewrite Hp. destruct Hs as [->|[->| ->]]; cbn [app]; [|reflexivity..].
    destruct (Z.eqb_spec x 123); [lia|]. destruct (Z.eqb_spec x 91); [lia|].
    destruct (Z.eqb_spec x 34); [lia|]. destruct (Z.eqb_spec x 116); [lia|].
    destruct (Z.eqb_spec x 102); [lia|]. destruct (Z.eqb_spec x 110); [lia|]. auto.
  - destruct (inf_nan_ok w rest) as [_ Hi]. specialize (Hi Hw).
    destruct (spells_nan_hd _ Hw) as (x & y & z & -> & Hx').
    assert (Hp : parseJsonNum E ((s ++ [x; y; z]) ++ rest) = Ok (VNan, rest)).
    { rewrite <- app_assoc. cbn [app] in *. rewrite num_signed; auto. apply letter_not_number; tauto. }
    rewrite Hp. destruct Hs as [->|[->| ->]]; cbn [app]; [|reflexivity..].
    specialize (Hx eq_refl). cbn [hd] in Hx.
    destruct (Z.eqb_spec x 123); [lia|]. destruct (Z.eqb_spec x 91); [lia|].
    destruct (Z.eqb_spec x 34); [lia|]. destruct (Z.eqb_spec x 116); [lia|].
    destruct (Z.eqb_spec x 102); [lia|]. destruct (Z.eqb_spec x 110); [congruence|]. auto.
  - cbn [app]. change (110 =? 123) with false. change (110 =? 91) with false.
    change (110 =? 34) with false. change (110 =? 116) with false. change (110 =? 102) with false.
    change (110 =? 110) with true. cbn match. cbn [firstn skipn tree_of].
    destruct Hf as [_ Hf].
    assert (Hz : 3 <=? zlen (110 :: a :: b :: rest) = true)
      by (rewrite !zlen_cons; pose proof (zlen_nonneg rest); lia).
    assert (Hn : beq [110; a; b] (bs "nan") = false).
    { destruct (beq [110; a; b] (bs "nan")) eqn:He; auto. apply beq_eq in He. simpl in He.
      injection He as -> ->. congruence. }
    rewrite Hz, Hn. cbn [negb andb].
    destruct ((zlen (110 :: a :: b :: rest) <? 4) || _) eqn:Hg; auto.
    exfalso. apply orb_false_iff in Hg as [Hg1 Hg2]. apply negb_false_iff, beq_eq in Hg2.
    destruct rest as [|c rest]; [discriminate|]. simpl in Hg2. injection Hg2 as -> -> ->.
    apply Hf; reflexivity.
Qed.

(** After a value inside a container comes whitespace or one of , ] }. *)
Definition delim (rest : bytes) : Prop := exists c r, rest = c :: r /\ In c [32; 9; 10; 13; 44; 93; 125].
Lemma delim_follows t b rest : delim rest -> follows t b rest.
Proof.
  intros (c & r & -> & Hc). split.
  - intros _. exists c, r. split; auto. unfold number_byte, digit. simpl in *. lia.
  - intros _. simpl in *. lia.
Qed.
Lemma delim_ws w c r : ws w -> In c [44; 93; 125] -> delim (w ++ c :: r).
Proof.
  intros Hw Hc. destruct Hw as [|x w Hx Hw]; [exists c, r|exists x, (w ++ c :: r)];
    (split; [reflexivity|]); simpl in *; tauto.
Qed.

Lemma drop_ws_first w b rest : ws w -> first_of b (fun c => wsb c = false) ->
  drop_ws (w ++ b ++ rest) = b ++ rest.
Proof. intros Hw (c & r & -> & Hc). cbn [app]. apply drop_ws_skip; auto. Qed.

Section Complete.
  Variable E : env.
  Definition value_done (t : jtree) (b : bytes) : Prop := forall f rest,
    follows t b rest -> (2 * List.length (b ++ rest) + 1 <= f)%nat ->
    js_value E f (b ++ rest) = Ok (tree_of E t, rest).
  Definition member_done (k : bytes) (x : jtree) (b : bytes) : Prop := forall f c rest acc,
    (c = 44 \/ c = 125) -> (2 * List.length (b ++ c :: rest) + 1 <= f)%nat ->
    js_members E (S f) (b ++ c :: rest) acc =
      (if c =? 44 then js_members E f rest (acc ++ [(k, tree_of E x)])
       else Ok (VObject false (acc ++ [(k, tree_of E x)]), rest)).
  Definition members_done (ms : list (bytes * jtree)) (b : bytes) : Prop := forall f rest acc,
    (2 * List.length (b ++ 125%Z :: rest) + 2 <= f)%nat ->
    js_members E f (b ++ 125 :: rest) acc = Ok (VObject false (acc ++ map (pair_tree E) ms), rest).
  Definition elems_done (xs : list jtree) (b : bytes) : Prop := forall f rest acc,
    (2 * List.length (b ++ 93%Z :: rest) + 2 <= f)%nat ->
    js_elems E f (b ++ 93 :: rest) acc = Ok (VArray (acc ++ map (tree_of E) xs), rest).

  Lemma elem_step w1 x bx w2 c rest f acc : ws w1 -> dialect x bx -> value_done x bx -> ws w2 ->
    (c = 44 \/ c = 93) -> (2 * List.length ((w1 ++ bx ++ w2) ++ c :: rest) + 1 <= f)%nat ->
    js_elems E (S f) ((w1 ++ bx ++ w2) ++ c :: rest) acc =
      (if c =? 44 then js_elems E f rest (acc ++ [tree_of E x])
       else Ok (VArray (acc ++ [tree_of E x]), rest)).
  Proof.
    intros Hw1 Hx Hdone Hw2 Hc Hf. rewrite js_elems_S, skipWB_fst.
    rewrite <- !app_assoc in *. rewrite drop_ws_first; eauto using dialect_first.
    rewrite Hdone.
    - cbn [bind]. rewrite (skipWB_eq (w2 ++ c :: rest)), drop_ws_skip; auto.
      + destruct Hc as [-> | ->]; reflexivity.
      + destruct Hc as [-> | ->]; reflexivity.
    - apply delim_follows, delim_ws; auto. simpl; lia.
    - rewrite !app_length in *. lia.
  Qed.

  Lemma complete :
    (forall t b, dialect t b -> value_done t b) /\
    (forall k x b, dmember k x b -> member_done k x b) /\
    (forall ms b, dmembers ms b -> members_done ms b) /\
    (forall xs b, delems xs b -> elems_done xs b).
  Proof.
    assert (H : (forall t b, dialect t b -> dialect t b /\ value_done t b) /\
      (forall k x b, dmember k x b -> dmember k x b /\ member_done k x b) /\
      (forall ms b, dmembers ms b -> dmembers ms b /\ members_done ms b) /\
      (forall xs b, delems xs b -> delems xs b /\ elems_done xs b)).
    2: { destruct H as (H1 & H2 & H3 & H4). repeat split; intros; [apply H1|apply H2|apply H3|apply H4]; auto. }
    apply json_mutind.
    - intros t b Hs. split; [constructor; auto|]. intros f rest Hfol Hf.
      destruct f as [|f]; [lia|]. apply scalar_ok; auto.
    - intros w Hw. split; [apply json_empty_obj; auto|]. intros f rest Hfol Hf.
      destruct f as [|f]; [lia|]. rewrite js_value_S. cbn [app].
      change (123 =? 123) with true. cbn match.
      rewrite <- app_assoc. cbn [app]. rewrite skipWB_eq, drop_ws_skip; auto.
    - intros w Hw. split; [apply json_empty_arr; auto|]. intros f rest Hfol Hf.
      destruct f as [|f]; [lia|]. rewrite js_value_S. cbn [app].
      change (91 =? 123) with false. change (91 =? 91) with true. cbn match.
      rewrite <- app_assoc. cbn [app]. rewrite skipWB_eq, drop_ws_skip; auto.
    - intros ms b _ [Hm Hdone]. split; [apply json_obj; auto|]. intros f rest Hfol Hf.
      destruct f as [|f]; [lia|]. rewrite js_value_S. cbn [app].
      change (123 =? 123) with true. cbn match.
      assert (Hfirst : exists w r, ws w /\ b = w ++ 34 :: r).
      { assert (Hm1 : forall k x bb, dmember k x bb -> exists w r, ws w /\ bb = w ++ 34 :: r)
          by (intros k x bb [w1 k' w2 w3 x' bx w4 H1 _ _ _ _ _]; exists w1; eexists; split; [exact H1|reflexivity]).
        destruct Hm as [k x bb H|k x bb ms' bm H _]; destruct (Hm1 _ _ _ H) as (w & r & Hw & ->);
          exists w; [eauto|]. rewrite <- app_assoc. eexists; split; [auto|reflexivity]. }
      destruct Hfirst as (w & r & Hw & Hb).
      assert (Hd : drop_ws ((b ++ [125]) ++ rest) = 34 :: r ++ 125 :: rest).
      { rewrite Hb. apps. apply drop_ws_skip; auto. }
      rewrite skipWB_eq, Hd. change (34 =? 125) with false. cbn match.
      destruct f as [|f]; [lens Hf|].
      specialize (Hdone (S f) rest []).
      assert (Hmem : js_members E (S f) (34 :: r ++ 125 :: rest) [] =
                     js_members E (S f) (b ++ 125 :: rest) []).
      { rewrite !js_members_S. rewrite (skipWB_eq (34 :: _)), (skipWB_eq (b ++ _)), Hb, <- app_assoc. cbn [app].
        rewrite drop_ws_skip by auto. reflexivity. }
      rewrite Hmem, Hdone; [reflexivity|].
      lens Hf.
    - intros xs b _ [Hm Hdone]. split; [apply json_arr; auto|]. intros f rest Hfol Hf.
      destruct f as [|f]; [lia|]. rewrite js_value_S. cbn [app].
      change (91 =? 123) with false. change (91 =? 91) with true. cbn match.
      assert (Hfirst : exists w c r, ws w /\ wsb c = false /\ c <> 93 /\ b = w ++ c :: r).
      { assert (H93 : forall x bx, dialect x bx -> first_of bx (fun c => wsb c = false /\ c <> 93)).
        { intros x bx Hx. destruct Hx as [t bb H| | | |];
            try (eexists _, _; split; [reflexivity|split; [reflexivity|discriminate]]).
          pose proof (d_scalar_first _ _ H) as (c & r & -> & Hc). exists c, r. repeat split; auto.
          intros ->. inversion H; subst.
          - match goal with H : number _ |- _ => destruct H as (_ & _ & _ & H); inversion H; subst end.
            match goal with H : number_byte 93 |- _ => unfold number_byte, digit in H; simpl in H; lia end.
          - match goal with H : sign ?s |- _ => destruct H as [->|[->| ->]] end; try discriminate.
            match goal with H : spells _ _ _ _ |- _ => destruct (spells_inf_hd _ H) as (x' & y & z & -> & Hx) end.
            simpl in *. match goal with H : _ :: _ = _ :: _ |- _ => injection H as H _; lia end.
          - match goal with H : sign ?s |- _ => destruct H as [->|[->| ->]] end; try discriminate.
            match goal with H : spells _ _ _ _ |- _ => destruct (spells_nan_hd _ H) as (x' & y & z & -> & Hx) end.
            simpl in *. match goal with H : _ :: _ = _ :: _ |- _ => injection H as H _; lia end. }
        destruct Hm as [w1 x bx w2 Hw1 Hx Hw2|w1 x bx w2 xs' bb Hw1 Hx Hw2 _];
          destruct (H93 _ _ Hx) as (c & r & -> & Hc1 & Hc2); exists w1, c.
        - exists (r ++ w2). auto.
        - rewrite <- !app_assoc. cbn [app]. eexists; repeat split; auto. }
      destruct Hfirst as (w & c & r & Hw & Hc1 & Hc2 & Hb).
      assert (Hd : drop_ws ((b ++ [93]) ++ rest) = c :: r ++ 93 :: rest).
      { rewrite Hb. apps. apply drop_ws_skip; auto. }
      rewrite skipWB_eq, Hd. destruct (Z.eqb_spec c 93); [congruence|].
      destruct f as [|f]; [lens Hf|].
      specialize (Hdone (S f) rest []).
      assert (Hmem : js_elems E (S f) (c :: r ++ 93 :: rest) [] =
                     js_elems E (S f) (b ++ 93 :: rest) []).
      { rewrite !js_elems_S. rewrite !skipWB_fst, Hb, <- app_assoc. cbn [app].
        rewrite drop_ws_skip by auto. cbn [drop_ws]. rewrite Hc1. reflexivity. }
      rewrite Hmem, Hdone; [reflexivity|].
      lens Hf.
    - intros w1 k w2 w3 x bx w4 Hw1 Hk Hw2 Hw3 _ [Hx Hdone] Hw4.
      split; [constructor; auto|]. intros f c rest acc Hc Hf. rewrite js_members_S.
      apps. apps_in Hf.
      rewrite skipWB_eq, drop_ws_skip by auto. change (negb (34 =? 34)) with false. cbn match.
      rewrite parse_key_ok by auto. cbn [bind].
      rewrite (skipWB_eq (w2 ++ _)), drop_ws_skip by auto. change (negb (58 =? 58)) with false. cbn match.
      rewrite skipWB_fst, drop_ws_first by eauto using dialect_first.
      rewrite Hdone.
      + cbn [bind]. rewrite (skipWB_eq (w4 ++ _)), drop_ws_skip; auto; destruct Hc as [-> | ->]; reflexivity.
      + apply delim_follows, delim_ws; auto. simpl; lia.
      + lens Hf.
    - intros k x b _ [Hm Hdone]. split; [constructor; auto|]. intros f rest acc Hf.
      destruct f as [|f]; [lia|]. rewrite Hdone; auto; lia.
    - intros k x b ms bm _ [Hm Hdone] _ [Hms Hrest]. split; [constructor; auto|]. intros f rest acc Hf.
      rewrite <- !app_assoc in *. cbn [app] in *.
      destruct f as [|f]; [lia|]. rewrite Hdone; [|auto|lens Hf].
      change (44 =? 44) with true. cbn match. rewrite Hrest.
      + rewrite <- app_assoc. reflexivity.
      + lens Hf.
    - intros w1 x bx w2 Hw1 _ [Hx Hdone] Hw2. split; [constructor; auto|]. intros f rest acc Hf.
      destruct f as [|f]; [lia|]. rewrite (elem_step w1 x bx w2); auto. lia.
    - intros w1 x bx w2 xs b Hw1 _ [Hx Hdone] Hw2 _ [Hxs Hrest]. split; [constructor; auto|].
      intros f rest acc Hf. destruct f as [|f]; [lia|].
      rewrite <- (app_assoc (w1 ++ bx ++ w2)) in *. cbn [app] in *.
      rewrite (elem_step w1 x bx w2); auto; [|lens Hf].
      change (44 =? 44) with true. cbn match. rewrite Hrest.
      + rewrite <- app_assoc. reflexivity.
      + lens Hf.
  Qed.
End Complete.
