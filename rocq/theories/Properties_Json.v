(** Properties C18-C27 and C52-C54: the JSON codec.  Each theorem is followed by what it
    assumes and by a concrete case. *)
From Coq Require Import String.
From Verif Require Import Base Values Tactics Env0 JsonModel JsonSpec JsonLex JsonParse JsonSound
  JsonWrite JsonThms.

Ltac ws_tac := repeat (constructor; [simpl; tauto|]); constructor.

(** ** C18 *)
Theorem C18_roundtrip : forall E st dt (all : bool) v w, int_parser_ok E ->
  st = (if all then JSE_AllEscape else JSE_OnlyAnsiChar) -> jplain E all v ->
  ws w -> (top_int v -> w <> []) ->
  exists b v', Value2Json E st dt v [] = Ok b /\ NewValueFromJson E (b ++ w) = Ok v' /\
    denote E v' = denote E v.
Proof. intros E st dt all v w HE -> Hp Hw Hn. apply (json_roundtrip E _ dt all); auto. destruct all; reflexivity. Qed.
Print Assumptions C18_roundtrip.
Definition sample : value :=
  VObject true [(bs "a b", VArray [VInt 0 (-12); VString (bs "x""\y"); VTrue; VNull]);
                (bs "o", VObject true []); (bs "s", VRawString (bs "q\""r"))].
Example C18_nonvacuous : int_parser_ok (env0 false) /\ jplain (env0 false) true sample /\
  Value2Json (env0 false) JSE_AllEscape false sample [] =
    Ok (bs "{""a b"":[-12,""x\""\\y"",true,null],""o"":{},""s"":""q\""r""}").
Proof.
  split; [apply env0_ints|]. split; [|vm_compute; reflexivity].
  cbn. repeat split; try discriminate; try tauto.
  - intros H. simpl in H. lia.
  - repeat (apply str_esc || (apply str_plain; [discriminate|discriminate|])); constructor.
  - intros H. simpl in H. lia.
  - intros H. simpl in H. lia.
  - apply str_plain; [discriminate|discriminate|]. apply str_esc. apply str_plain; [discriminate|discriminate|]. constructor.
Qed.

(** ** C19 *)
Theorem C19_same : forall E st dt v dst,
  writable E (match st with JSE_NoEscape => None | JSE_AllEscape => Some true | JSE_OnlyAnsiChar => Some false end) dt v ->
  exists bc bf, Value2Json E st dt v dst = Ok (dst ++ bc) /\
    Value2FormatJson E st dt v dst = Ok (dst ++ bf) /\
    NewValueFromJson E bf = NewValueFromJson E bc /\
    exists t, dialect t bc /\ dialect t bf.
Proof. exact format_same. Qed.
Print Assumptions C19_same.
(** Outside that set the two differ: a short binary is skipped by one and panics the other. *)
Theorem C19_binary_refuted : forall E st dt b ext dst, zlen b < 12 ->
  Value2Json E st dt (VBinary ext b) dst = Ok dst /\
  Value2FormatJson E st dt (VBinary ext b) dst = Panic.
Proof.
  intros E st dt b ext dst Hb. split; [reflexivity|].
  unfold Value2FormatJson, formatValue, format_binary.
  destruct (ext =? 7); [|destruct (ext =? 19)];
    match goal with |- context [?a <? ?c] => destruct (Z.ltb_spec a c); [reflexivity|lia] end.
Qed.
Print Assumptions C19_binary_refuted.
Example C19_nonvacuous : writable (env0 false) (Some true) false sample /\
  Value2FormatJson (env0 false) JSE_AllEscape false
     (VObject true [(bs "a", VArray [VInt 0 1; VNilP]); (bs "o", VObject true [])]) [] =
  Ok (bs "{" ++ [13; 10] ++ bs "  ""a"":[" ++ [13; 10] ++ bs "    1," ++ [13; 10] ++ bs "    null" ++ [13; 10] ++
      bs "  ]," ++ [13; 10] ++ bs "  ""o"":{" ++ [13; 10; 13; 10] ++ bs "  }" ++ [13; 10] ++ bs "}").
Proof.
  split; [|vm_compute; reflexivity].
  apply (jplain_writable (env0 false) JSE_AllEscape false true sample eq_refl). apply C18_nonvacuous.
Qed.

(** ** C20 *)
Theorem C20_total : forall E b,
  (exists v, NewValueFromJson E b = Ok v) \/ (exists e, NewValueFromJson E b = Err e).
Proof.
  intros E b. pose proof (NewValueFromJson_good E b) as H.
  destruct (NewValueFromJson E b); try contradiction; eauto.
Qed.
Print Assumptions C20_total.
(** The accepted texts, and what they denote, are exactly those of the dialect grammar. *)
Theorem C20_accepts : forall E b v, v <> VNilP ->
  (NewValueFromJson E b = Ok v <->
   exists w1 t bt w2, b = w1 ++ bt ++ w2 /\ ws w1 /\ dialect t bt /\ ws w2 /\
     (is_number t -> w2 <> []) /\ v = tree_of E t).
Proof. exact accepted_iff. Qed.
Print Assumptions C20_accepts.
(** Every RFC 8259 text whose keys contain no quote is accepted. *)
Theorem C20_rfc8259 : forall E w1 t bt w2, ws w1 -> rfc8259_nq t bt -> ws w2 -> (is_number t -> w2 <> []) ->
  NewValueFromJson E (w1 ++ bt ++ w2) = Ok (tree_of E t).
Proof. exact rfc_accepted. Qed.
Print Assumptions C20_rfc8259.
Example C20_nonvacuous :
  NewValueFromJson (env0 false) (bs " { ""k"" : [ 1 , 2.5 , ""s"" ] } ") =
    Ok (VObject false [(bs "k", VArray [VInt 0 1; VFloat 0; VRawString (bs "s")])]) /\
  (exists e, NewValueFromJson (env0 false) (bs "[1 2]") = Err e) /\
  rfc8259_nq (JArray [JNumber (bs "-1.5e+3"); JNull]) (bs "[-1.5e+3,null]").
Proof.
  split; [vm_compute; reflexivity|]. split; [eexists; vm_compute; reflexivity|].
  change (bs "[-1.5e+3,null]") with ([91] ++ (([] ++ bs "-1.5e+3" ++ []) ++ [44] ++ ([] ++ bs "null" ++ [])) ++ [93]).
  apply json_arr. apply elems_more; [constructor| |constructor|].
  - apply json_scalar, rfc_num. exists [45], [49], [46; 53], [101; 43; 51].
    repeat split; auto.
    + right. exists 49, []. repeat split; auto; lia.
    + right. exists [53]. repeat split; auto; [discriminate|]. repeat constructor; unfold digit; lia.
    + right. exists 101, [43], [51]. repeat split; auto; [right; right; auto|discriminate|].
      repeat constructor; unfold digit; lia.
  - apply elems_one; [constructor|apply json_scalar, rfc_null|constructor].
Qed.

(** ** C21 *)
Theorem C21_string_end : forall E w b n, ws w -> closing b n -> (forall m, (m < n)%nat -> ~ closing b m) ->
  (ws (skipn (n + 1) b) ->
     NewValueFromJson E (w ++ 34 :: b) = Ok (tree_of E (JString (firstn n b)))) /\
  (~ ws (skipn (n + 1) b) -> exists i, NewValueFromJson E (w ++ 34 :: b) =
     Err (ErrJson JET_Invalidate i (skipn (n + 1) b))).
Proof. exact string_doc. Qed.
Print Assumptions C21_string_end.
Theorem C21_unterminated : forall E w b, ws w -> (forall n, ~ closing b n) ->
  exists e, NewValueFromJson E (w ++ 34 :: b) = Err e.
Proof. exact string_unterminated. Qed.
Print Assumptions C21_unterminated.
Example C21_nonvacuous : closing (bs "a\\\""b\\""") 8 /\ ~ closing (bs "a\\\""b\\""") 4 /\
  NewValueFromJson (env0 false) (bs """a\\\""b\\""") = Ok (VRawString (bs "a\\\""b\\")) /\
  (exists e, NewValueFromJson (env0 false) (bs """a\\\""") = Err e).
Proof.
  split; [split; reflexivity|]. split; [intros [_ H]; discriminate H|].
  split; [vm_compute; reflexivity|]. eexists; vm_compute; reflexivity.
Qed.

(** ** C22 *)
Theorem C22_whitespace : forall E t b1 b2 w1 w2 w3 w4, dialect t b1 -> dialect t b2 ->
  ws w1 -> ws w2 -> ws w3 -> ws w4 -> (is_number t -> w2 <> [] /\ w4 <> []) ->
  NewValueFromJson E (w1 ++ b1 ++ w2) = NewValueFromJson E (w3 ++ b2 ++ w4).
Proof. exact respaced. Qed.
Print Assumptions C22_whitespace.
(** Blanks in front of anything, accepted or not, make no difference. *)
Theorem C22_leading : forall E w b, ws w -> NewValueFromJson E (w ++ b) = NewValueFromJson E b.
Proof. exact leading_ws. Qed.
Print Assumptions C22_leading.
Example C22_nonvacuous :
  NewValueFromJson (env0 false) (bs "{""a"":[1,{}]}") =
  NewValueFromJson (env0 false) ([9; 13; 10] ++ bs "{ ""a""  :[ 1, { } ] }" ++ [10]) /\
  (exists e, NewValueFromJson (env0 false) ([11] ++ bs "{""a"":[1,{}]}") = Err e).
Proof. split; [vm_compute; reflexivity|eexists; vm_compute; reflexivity]. Qed.

(** ** C23 *)
Theorem C23_trailing : forall E w1 bt t g, ws w1 -> dialect t bt -> ~ is_number t -> hd 0 g <> 108 ->
  (NewValueFromJson E (w1 ++ bt ++ g) = Ok (tree_of E t) <-> ws g) /\
  (~ ws g -> exists e, NewValueFromJson E (w1 ++ bt ++ g) = Err e).
Proof. exact trailing. Qed.
Print Assumptions C23_trailing.
Example C23_nonvacuous : dialect (JArray []) (bs "[ ]") /\
  NewValueFromJson (env0 false) (bs "[ ]" ++ bs "  ") = Ok (VArray []) /\
  (exists e, NewValueFromJson (env0 false) (bs "[ ]" ++ bs " ]") = Err e).
Proof.
  split; [apply (json_empty_arr _ _ [32]); ws_tac|].
  split; [vm_compute; reflexivity|eexists; vm_compute; reflexivity].
Qed.

(** ** C24 *)
Theorem C24_nil_exactly : forall E b, NewValueFromJson E b = Ok VNilP <->
  exists w lex, b = w ++ lex /\ ws w /\ lex <> [] /\ Forall number_byte lex.
Proof. exact nil_iff. Qed.
Print Assumptions C24_nil_exactly.
Theorem C24_value_refuted : ~ (forall E b v, NewValueFromJson E b = Ok v -> v <> VNilP).
Proof. intros H. apply (H (env0 false) (bs "123") VNilP); reflexivity. Qed.
Print Assumptions C24_value_refuted.
Example C24_nonvacuous : NewValueFromJson (env0 false) (bs " 123") = Ok VNilP /\
  NewValueFromJson (env0 false) (bs "123 ") = Ok (VInt 0 123).
Proof. split; vm_compute; reflexivity. Qed.

(** ** C25 *)
Theorem C25_literals : forall E b,
  (NewValueFromJson E b = Ok VTrue <-> exists w1 w2, b = w1 ++ bs "true" ++ w2 /\ ws w1 /\ ws w2) /\
  (NewValueFromJson E b = Ok VFalse <-> exists w1 w2, b = w1 ++ bs "false" ++ w2 /\ ws w1 /\ ws w2) /\
  (NewValueFromJson E b = Ok VNull <-> exists w1 w2, b = w1 ++ bs "null" ++ w2 /\ ws w1 /\ ws w2).
Proof. exact literal_iff. Qed.
Print Assumptions C25_literals.
(** What is read as NaN: the word in any case with a sign or a capital N, and any other
    three bytes that start with 'n'. *)
Theorem C25_nan_exactly : forall E b, NewValueFromJson E b = Ok VNan <->
  exists w1 tok w2, b = w1 ++ tok ++ w2 /\ ws w1 /\ ws w2 /\
    ((exists s w, sign s /\ spells w 110 97 110 /\ (s = [] -> hd 0 w <> 110) /\ tok = s ++ w) \/
     (exists x y, tok = [110; x; y] /\ [x; y] <> [97; 110])).
Proof. exact nan_iff. Qed.
Print Assumptions C25_nan_exactly.
Theorem C25_nan_refuted :
  ~ (forall E, NewValueFromJson E (bs "nan") = Ok VNan) /\
  ~ (forall E b, NewValueFromJson E b = Ok VNan -> exists s w, sign s /\ spells w 110 97 110 /\ b = s ++ w).
Proof.
  split; intros H.
  - specialize (H (env0 false)). vm_compute in H. discriminate.
  - destruct (H (env0 false) (bs "nul") eq_refl) as (s & w & Hs & (x & y & z & -> & Hx & Hy & Hz) & Hb).
    destruct Hs as [->|[->| ->]]; try discriminate. injection Hb as <- <- <-. unfold up in *. lia.
Qed.
Print Assumptions C25_nan_refuted.
Example C25_nonvacuous : NewValueFromJson (env0 false) (bs " null ") = Ok VNull /\
  NewValueFromJson (env0 false) (bs "nul") = Ok VNan /\
  (exists e, NewValueFromJson (env0 false) (bs "nan") = Err e).
Proof. split; [vm_compute; reflexivity|]. split; [vm_compute; reflexivity|]. eexists; vm_compute; reflexivity. Qed.

(** ** C26 *)
Theorem C26_printable : forall E b e, NewValueFromJson E b = Err e -> error_string_ok e = false ->
  exists p k, b = p ++ 34 :: k /\ k <> [] /\ ~ In 34 k.
Proof.
  intros E b e H He. pose proof (NewValueFromJson_good E b) as Hg. rewrite H in Hg.
  destruct Hg as [Hg|(p & k & H1 & H2 & H3 & _)]; [congruence|eauto].
Qed.
Print Assumptions C26_printable.
Theorem C26_refuted : forall E k, k <> [] -> ~ In 34 k ->
  exists e, NewValueFromJson E ([123; 34] ++ k) = Err e /\ error_string_ok e = false.
Proof. exact key_error. Qed.
Print Assumptions C26_refuted.
Example C26_nonvacuous : exists e1 e2,
  NewValueFromJson (env0 false) (bs "{""ab") = Err e1 /\ error_string_ok e1 = false /\
  NewValueFromJson (env0 false) (bs "{""ab"" 1}") = Err e2 /\ error_string_ok e2 = true.
Proof. eexists _, _. split; [vm_compute; reflexivity|]. repeat split; vm_compute; reflexivity. Qed.

(** The position in the message of an error after blanks is that of the last blank, not of the byte after it. *)
Theorem C26_position : forall w c r, Forall (fun x => wsb x = true) w -> wsb c = false ->
  skipWB (w ++ c :: r) = (c :: r, Z.max 0 (zlen w - 1)) /\ skipWB w = ([], 0).
Proof.
  assert (L : forall w i c r, Forall (fun x => wsb x = true) w -> wsb c = false ->
    skip_loop i (w ++ c :: r) = (c :: r, i + zlen w - 1) /\ skip_loop i w = ([], 0)).
  { induction w as [|x w IH]; intros i c r H C; cbn [app skip_loop].
    - rewrite C. unfold zlen. cbn. split; [f_equal; lia|reflexivity].
    - inversion H; subst. rewrite H2. destruct (IH (i + 1) c r H3 C) as [-> ->]. unfold zlen. cbn [List.length].
      split; [f_equal; lia|reflexivity]. }
  intros w c r H C. destruct w as [|x w]; cbn [app skipWB].
  - rewrite C. split; reflexivity.
  - inversion H; subst. rewrite H2. destruct (L w 1 c r H3 C) as [-> ->]. unfold zlen. cbn [List.length].
    split; [f_equal; lia|reflexivity].
Qed.
Print Assumptions C26_position.
Example C26_position_nonvacuous : NewValueFromJson (env0 false) (bs "{ ""a""   1}") = Err (ErrJson JET_NoKVSplit 2 (bs "   1}")).
Proof. vm_compute. reflexivity. Qed.

(** ** C27 *)
Theorem C27_agrees : forall E r b v, NewValueFromJson E b = Ok v ->
  (is_obj v -> is_obj r) -> (is_arr v -> is_arr r) -> ~ is_vnum v -> v <> VNilP ->
  LoadFromJson E r b = (v, Ok tt).
Proof. exact load_agrees. Qed.
Print Assumptions C27_agrees.
Theorem C27_total : forall E r b,
  snd (LoadFromJson E r b) = Ok tt \/ exists e, snd (LoadFromJson E r b) = Err e.
Proof.
  intros E r b. pose proof (load_total E r b) as H. destruct (snd (LoadFromJson E r b)) as [[]| | |]; eauto; contradiction.
Qed.
Print Assumptions C27_total.
(** Numbers arrive as integers whatever their text. *)
Theorem C27_number_refuted : forall E r w lex c rest, ws w -> number lex -> ~ number_byte c ->
  exists ext, LoadFromJson E r (w ++ lex ++ c :: rest) = (VInt ext (x_str2int E lex 0), Ok tt).
Proof.
  intros E r w lex c rest Hw Hl Hc. rewrite load_number by auto.
  destruct (clear_value r); eexists; reflexivity.
Qed.
Print Assumptions C27_number_refuted.
(** Whatever follows an object or array is ignored. *)
Theorem C27_garbage_refuted : forall E r w t bt rest, ws w -> dialect t bt ->
  match t with JObject _ => is_obj r | JArray _ => is_arr r | _ => False end ->
  LoadFromJson E r (w ++ bt ++ rest) = (tree_of E t, Ok tt).
Proof.
  intros E r w t bt rest Hw Hd Hr. destruct t; try contradiction.
  - apply load_object; auto.
  - apply load_array; auto.
Qed.
Print Assumptions C27_garbage_refuted.
Theorem C27_refuted :
  ~ (forall E r b v, NewValueFromJson E b = Ok v -> LoadFromJson E r b = (v, Ok tt)) /\
  ~ (forall E r b v, is_obj r -> LoadFromJson E r b = (v, Ok tt) -> NewValueFromJson E b = Ok v).
Proof.
  split; intros H.
  - specialize (H (env0 false) (VInt 0 7) (bs "{""a"":1}") _ eq_refl). vm_compute in H. discriminate.
  - specialize (H (env0 false) (VObject false []) (bs "{}x") _ I eq_refl). vm_compute in H. discriminate.
Qed.
Print Assumptions C27_refuted.
Example C27_nonvacuous :
  LoadFromJson (env0 false) (VObject true [(bs "old", VNull)]) (bs "{""a"":[1]} ") =
    (VObject false [(bs "a", VArray [VInt 0 1])], Ok tt) /\
  LoadFromJson (env0 false) (VInt 0 7) (bs """s""") = (VRawString (bs "s"), Ok tt) /\
  LoadFromJson (env0 false) (VInt 0 7) (bs "[1]") = (VInt 0 7, Ok tt).
Proof. repeat split; vm_compute; reflexivity. Qed.

(** ** C52: keys that contain an escaped quote *)
Theorem C52_escaped_quote_refuted : forall E k1 k2 b, ~ In 34 k1 -> ~ In (hd 34 k2) [32; 9; 10; 13; 58] ->
  exists e, NewValueFromJson E ([123; 34] ++ k1 ++ [92; 34] ++ k2 ++ [34; 58] ++ b) = Err e.
Proof. exact escaped_quote_key. Qed.
Print Assumptions C52_escaped_quote_refuted.
Theorem C52_rfc_refuted :
  ~ (forall E t b, rfc8259 t b -> ~ is_number t -> exists v, NewValueFromJson E b = Ok v) /\
  (exists v out e, Value2Json (env0 false) JSE_AllEscape false v [] = Ok out /\
     NewValueFromJson (env0 false) out = Err e).
Proof.
  split.
  - intros H. destruct (H (env0 false) (JObject [(bs "a\""b", JNull)]) (bs "{""a\""b"":null}")) as [v Hv];
      [|tauto|vm_compute in Hv; discriminate].
    change (bs "{""a\""b"":null}") with
      ([123] ++ ([] ++ [34] ++ bs "a\""b" ++ [34] ++ [] ++ [58] ++ [] ++ bs "null" ++ []) ++ [125]).
    apply json_obj, members_one, member_intro; try apply Forall_nil.
    + change (bs "a\""b") with [97; 92; 34; 98]. apply rfc_plain; try lia. apply rfc_esc; [simpl; auto|]. apply rfc_plain; try lia. apply rfc_nil.
    + apply json_scalar, rfc_null.
  - exists (VObject true [(bs "a""b", VNull)]). eexists _, _.
    split; [vm_compute; reflexivity|]. vm_compute; reflexivity.
Qed.
Print Assumptions C52_rfc_refuted.
Example C52_nonvacuous : exists e, NewValueFromJson (env0 false) (bs "{""a\""b"":null}") = Err e.
Proof. apply (C52_escaped_quote_refuted (env0 false) (bs "a") (bs "b") (bs "null}")); simpl; lia. Qed.

(** ** C53: floating point numbers *)
Theorem C53_float_back : forall E st dt r, let d := x_f32_to_f64 E (r mod 2 ^ 32) in
  number (x_fmt_f64 E d) -> In 46 (x_fmt_f64 E d) -> x_str2f64 E (x_fmt_f64 E d) 0 = d ->
  x_f64_to_f32 E d = r ->
  exists out, Value2Json E st dt (VArray [VFloat r]) [] = Ok out /\
    NewValueFromJson E out = Ok (VArray [VFloat r]).
Proof.
  intros E st dt r d Hn Hd Hs Hf. destruct (float_text E st dt (VFloat r) d) as (out & H1 & H2); auto.
  - right. exists r. auto.
  - exists out. split; auto. rewrite H2. destruct (in_dec Z.eq_dec 46 (x_fmt_f64 E d)); [|contradiction].
    rewrite Hs, Hf. reflexivity.
Qed.
Print Assumptions C53_float_back.
Theorem C53_double_refuted : forall E st dt d, number (x_fmt_f64 E d) ->
  exists out x, Value2Json E st dt (VArray [VDouble d]) [] = Ok out /\
    NewValueFromJson E out = Ok (VArray [x]) /\
    (~ In 46 (x_fmt_f64 E d) -> x = VInt 0 (x_str2int E (x_fmt_f64 E d) 0)) /\
    (In 46 (x_fmt_f64 E d) -> x = VFloat (x_f64_to_f32 E (x_str2f64 E (x_fmt_f64 E d) 0))).
Proof.
  intros E st dt d Hn. destruct (float_text E st dt (VDouble d) d) as (out & H1 & H2); auto.
  exists out. eexists. split; [exact H1|]. split; [exact H2|].
  destruct (in_dec Z.eq_dec 46 (x_fmt_f64 E d)); split; intros; auto; contradiction.
Qed.
Print Assumptions C53_double_refuted.
Example C53_nonvacuous : number (x_fmt_f64 (env0 false) 5) /\
  (do out <- Value2Json (env0 false) JSE_AllEscape false (VArray [VDouble 5]) [];
   NewValueFromJson (env0 false) out) = Ok (VArray [VInt 0 5]).
Proof. split; [apply fmt_int_number|vm_compute; reflexivity]. Qed.

(** ** C54: a truncated document breaks its receiver *)
Theorem C54_truncated_refuted : forall E r w1 k w2 w3, is_obj r -> ws w1 -> ~ In 34 k -> ws w2 -> ws w3 ->
  exists e r', LoadFromJson E r ([123] ++ w1 ++ [34] ++ k ++ [34] ++ w2 ++ [58] ++ w3) = (r', Err e) /\
    forall st dt dst, Value2Json E st dt r' dst = Panic.
Proof.
  intros E r w1 k w2 w3 Hr Hw1 Hk Hw2 Hw3.
  destruct (load_broken E r w1 k w2 w3 [] Hr Hw1 Hk Hw2 Hw3) as (e & r' & H1 & H2).
  - intros v rest H. vm_compute in H. discriminate.
  - rewrite app_nil_r in H1. eauto.
Qed.
Print Assumptions C54_truncated_refuted.
Example C54_nonvacuous : exists e,
  LoadFromJson (env0 false) (VObject true [(bs "old", VNull)]) (bs "{""a"": ") =
    (VObject false [(bs "a", VNilP)], Err e).
Proof. eexists. vm_compute. reflexivity. Qed.
