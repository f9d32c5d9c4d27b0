(** Properties C70-C73: nested YAML documents, comments and trailing white space.  Each theorem is
    followed by what it assumes and by a concrete case. *)
From Coq Require Import String.
From Verif Require Import Base Values Tactics Env0 HeapModel HeapSpec HeapBase HeapConf HeapGet
  ApiSpec HeapMap HeapCalls HeapObj YamlModel YamlSpec YamlThms YamlTreeSpec YamlTree YamlTreeDoc YamlDecor HeapView
  Properties_Map Properties_Clone Properties_Merge Properties_Yaml.

(** ** C70 *)
(** A document that is a mapping, of scalars, mappings and lists nested to any depth, whatever the
    indentation of every block: the value built is what the document says, all its cells are new, and
    nothing that was there changes. *)
Theorem C70_mapping : forall E G pick cf m p s i es nl use, wf s -> pooled p -> es <> ENil -> good_e plain_value (key_match E) es ->
  distinct (key_match E) (keys_e es) -> (List.length (lines_e i es) < m)%nat ->
  exists r p' s', NewValueFromYaml E G pick cf m p s (doc (lines_e i es ++ if nl : bool then [[]] else [])) use = Ok (None, Some r, p', s') /\
    wf s' /\ live s' r /\ rep (hp s') (Some r) (VObject true (val_e (scalar E) es)) /\
    (forall x, live s x -> hp s' x = hp s x /\ live s' x) /\
    (forall x, reach (hp s') r x -> (5 <= x)%nat /\ ~ live s x /\ live s' x).
Proof.
  intros E G pick cf m p s i es nl use W P NE GE DE LE.
  rewrite <- (proj1 (proj2 (plain_val E (key_match E))) _ GE). apply (proj1 (proj2 (plain_good (key_match E)))) in GE.
  assert (Q : lines_e i es = lines_d i (DMap es INil)) by (cbn [lines_d lines_i]; rewrite app_nil_r; reflexivity). rewrite Q in *.
  exact (tree_new E G pick cf m p s i (DMap es INil) nl use W (proj1 (proj2 (proj2 (pooled_empty p P)))) (conj NE (conj GE (conj DE I))) LE).
Qed.
Print Assumptions C70_mapping.
(** The same for a document that is a list. *)
Theorem C70_list : forall E G pick cf m p s i l nl use, wf s -> pooled p -> l <> INil -> good_i plain_value (key_match E) l ->
  (List.length (lines_i i l) < m)%nat ->
  exists r p' s', NewValueFromYaml E G pick cf m p s (doc (lines_i i l ++ if nl : bool then [[]] else [])) use = Ok (None, Some r, p', s') /\
    wf s' /\ live s' r /\ rep (hp s') (Some r) (VArray (val_i (scalar E) l)) /\
    (forall x, live s x -> hp s' x = hp s x /\ live s' x) /\
    (forall x, reach (hp s') r x -> (5 <= x)%nat /\ ~ live s x /\ live s' x).
Proof.
  intros E G pick cf m p s i l nl use W P NE GI LE.
  rewrite <- (proj2 (proj2 (plain_val E (key_match E))) _ GI). apply (proj2 (proj2 (plain_good (key_match E)))) in GI.
  exact (tree_new E G pick cf m p s i (DList l) nl use W (proj1 (proj2 (proj2 (pooled_empty p P)))) (conj NE GI) LE).
Qed.
Print Assumptions C70_list.
(** Both through [LoadFromYaml], into any value that survives its own [Clear]. *)
Theorem C70_load_mapping : forall E G pick cf m p s s1 l k t es nl, wf s -> pooled p -> Clear s l = Ok s1 -> live s1 l -> (5 <= l)%nat ->
  let d := ECons k t es in good_e plain_value (key_match E) d -> distinct (key_match E) (keys_e d) -> hd 0 k <> 9 -> (List.length (lines_e 0 d) < m)%nat ->
  exists p' s', LoadFromYaml E G pick cf m p s l (doc (lines_e 0 d ++ if nl : bool then [[]] else [])) = Ok (None, p', s') /\ wf s' /\ live s' l /\
    rep (hp s') (Some l) (VObject true (val_e (scalar E) d)) /\ (forall x, live s1 x -> x <> l -> hp s' x = hp s1 x /\ live s' x) /\
    (forall x, reach (hp s') l x -> x = l \/ ~ live s1 x).
Proof.
  intros E G pick cf m p s s1 l k t es nl W P CL L L5 d GE DE H9 LE.
  rewrite <- (proj1 (proj2 (plain_val E (key_match E))) _ GE). apply (proj1 (proj2 (plain_good (key_match E)))) in GE.
  assert (Q : lines_e 0 d = lines_d 0 (DMap d INil)) by (cbn [lines_d lines_i]; rewrite app_nil_r; reflexivity). rewrite Q in *.
  refine (tree_load E G pick cf m p s s1 l (DMap d INil) nl W CL L L5 (proj1 (proj2 (proj2 (pooled_empty p P)))) (conj _ (conj GE (conj DE I))) _ LE).
  - discriminate.
  - intros k0 t0 r0 l0 Q0. injection Q0 as <- _ _ _. exact H9.
Qed.
Print Assumptions C70_load_mapping.
Theorem C70_load_list : forall E G pick cf m p s s1 l li nl, wf s -> pooled p -> Clear s l = Ok s1 -> live s1 l -> (5 <= l)%nat ->
  li <> INil -> good_i plain_value (key_match E) li -> (List.length (lines_i 0 li) < m)%nat ->
  exists p' s', LoadFromYaml E G pick cf m p s l (doc (lines_i 0 li ++ if nl : bool then [[]] else [])) = Ok (None, p', s') /\ wf s' /\ live s' l /\
    rep (hp s') (Some l) (VArray (val_i (scalar E) li)) /\ (forall x, live s1 x -> x <> l -> hp s' x = hp s1 x /\ live s' x) /\
    (forall x, reach (hp s') l x -> x = l \/ ~ live s1 x).
Proof.
  intros E G pick cf m p s s1 l li nl W P CL L L5 NE GI LE.
  rewrite <- (proj2 (proj2 (plain_val E (key_match E))) _ GI). apply (proj2 (proj2 (plain_good (key_match E)))) in GI.
  refine (tree_load E G pick cf m p s s1 l (DList li) nl W CL L L5 (proj1 (proj2 (proj2 (pooled_empty p P)))) (conj NE GI) _ LE).
  discriminate.
Qed.
Print Assumptions C70_load_list.

(** A concrete document. *)
Definition tree1 : yents :=
  ECons (bs "name") (YS (bs "demo"))
  (ECons (bs "server") (YM 1 (ECons (bs "host") (YS (bs "a b")) (ECons (bs "tls") (YM 2 (ECons (bs "on") (YS (bs "true")) ENil)) (ECons (bs "none") (YM 0 ENil) ENil))))
  (ECons (bs "users") (YL 1 (IMap (bs "id") (bs "7") (ECons (bs "tags") (YL 0 (IVal (bs "x") (IVal (bs "y") INil))) ENil) (IVal (bs "plain") INil)))
  (ECons (bs "last") (YS (bs "false")) ENil))).
Lemma no_commentb_ok b : forallb (fun c => negb (c =? 35)) b = true -> no_comment b.
Proof.
  intros H x y Q. rewrite forallb_forall in H. assert (I : In 35 b) by (rewrite Q; apply in_or_app; right; right; left; auto).
  specialize (H 35 I). discriminate.
Qed.
Ltac plains := repeat split; try discriminate; try (apply no_commentb_ok; reflexivity); cbv; intuition discriminate.
Lemma tree1_good : good_e plain_value (key_match y0) tree1 /\ distinct (key_match y0) (keys_e tree1).
Proof.
  split; [|repeat constructor; vm_compute; reflexivity].
  unfold tree1. cbn [good_e good_t good_i keys_e].
  repeat match goal with
  | |- _ /\ _ => split
  | |- True => exact I
  | |- plain_key _ => plains
  | |- plain_value _ => plains
  | |- distinct _ _ => repeat constructor; vm_compute; reflexivity
  | |- _ <> _ => discriminate
  | |- ~ In _ _ => cbv; intuition discriminate
  end.
Qed.
Example C70_case : lines_e 0 tree1 = map bs ["name: demo"; "server:"; "  host: a b"; "  tls:"; "     on: true"; "  none:"; "users:"; "  - id: 7";
    "    tags:"; "     - x"; "     - y"; "  - plain"; "last: false"]%string /\
  good_e plain_value (key_match y0) tree1 /\ distinct (key_match y0) (keys_e tree1) /\
  val_e (scalar y0) tree1 = [(bs "name", VString (bs "demo"));
    (bs "server", VObject true [(bs "host", VString (bs "a b")); (bs "tls", VObject true [(bs "on", VTrue)]); (bs "none", VObject false [])]);
    (bs "users", VArray [VObject true [(bs "id", VDouble 7); (bs "tags", VArray [VString (bs "x"); VString (bs "y")])]; VString (bs "plain")]);
    (bs "last", VFalse)].
Proof. split; [vm_compute; reflexivity|]. split; [apply tree1_good|]. split; [apply tree1_good|vm_compute; reflexivity]. Qed.
Example C70_load_case : exists s1, wf (st_of y0 gr obj1) /\ Clear (st_of y0 gr obj1) 5 = Ok s1 /\ live s1 5.
Proof.
  destruct (ok_ex (fun s => live_b s 5) (Clear (st_of y0 gr obj1) 5) true) as (s1 & Q1 & Q2); [vm_compute; reflexivity|].
  exists s1. split; [apply st_of_wf; vm_compute; reflexivity|]. split; [exact Q1|apply live_of; exact Q2].
Qed.

(** ** C71 *)
Lemma yaml_view ls v : ok_map (fun r => (fst (fst (fst r)), snd (fst (fst r)), view 5 (hp (snd r)) (snd (fst (fst r)))))
    (NewValueFromYaml y0 gr nopool 9 9 fresh_parser st0 (lines ls) true) = Some (None, Some 5%nat, Some v) ->
  exists r p' s', NewValueFromYaml y0 gr nopool 9 9 fresh_parser st0 (lines ls) true = Ok (None, Some r, p', s') /\ rep (hp s') (Some r) v.
Proof.
  intros H. destruct (ok_ex _ _ _ H) as ([[[e r] p] s] & Q1 & Q2). cbn [fst snd] in Q2.
  apply pair_equal_spec in Q2 as [Q2 V]. apply pair_equal_spec in Q2 as [-> ->]. exists 5%nat, p, s. split; [exact Q1|]. exact (view_rep _ _ _ _ V).
Qed.
(** Full statement: C70 with list items whose first entry is not a scalar.  It is false.
    The second key of an item whose first key holds two levels of mappings lands inside the first. *)
Theorem C71_nested_first_refuted : exists r p' s',
  NewValueFromYaml y0 gr nopool 9 9 fresh_parser st0 (lines ["- k:"; "    m:"; "      n: x"; "  other: y"]%string) true = Ok (None, Some r, p', s') /\
  rep (hp s') (Some r) (VArray [VObject true [(bs "k", VObject true [(bs "m", VObject true [(bs "n", VString (bs "x"))]); (bs "other", VString (bs "y"))])]]).
Proof. apply yaml_view. vm_compute. reflexivity. Qed.
Print Assumptions C71_nested_first_refuted.
(** With the scalar entry first the same item is read as it is written. *)
Theorem C71_nested_first_control : exists r p' s',
  NewValueFromYaml y0 gr nopool 9 9 fresh_parser st0 (lines ["- other: y"; "  k:"; "    m:"; "      n: x"]%string) true = Ok (None, Some r, p', s') /\
  rep (hp s') (Some r) (VArray [VObject true [(bs "other", VString (bs "y")); (bs "k", VObject true [(bs "m", VObject true [(bs "n", VString (bs "x"))])])]]).
Proof. apply yaml_view. vm_compute. reflexivity. Qed.
Print Assumptions C71_nested_first_control.
(** A list under the first key of an item: the first element becomes part of a string, the others go
    to the list outside. *)
Theorem C71_list_first_refuted : exists r p' s',
  NewValueFromYaml y0 gr nopool 9 9 fresh_parser st0 (lines ["- k:"; "    - a"; "    - b"]%string) true = Ok (None, Some r, p', s') /\
  rep (hp s') (Some r) (VArray [VObject true [(bs "k", VString (bs "null a"))]; VString (bs "b")]).
Proof. apply yaml_view. vm_compute. reflexivity. Qed.
Print Assumptions C71_list_first_refuted.
(** A list as item of a list, on one line, is a string. *)
Theorem C71_list_item_refuted : exists r p' s',
  NewValueFromYaml y0 gr nopool 9 9 fresh_parser st0 (lines ["- - a"; "  - b"]%string) true = Ok (None, Some r, p', s') /\
  rep (hp s') (Some r) (VArray [VString (bs "- a b")]).
Proof. apply yaml_view. vm_compute. reflexivity. Qed.
Print Assumptions C71_list_item_refuted.

(** ** C72 *)
(** List items at the indentation of the mapping before them discard that mapping, without an error:
    for every mapping and every list, only the list is left. *)
Theorem C72_refuted : forall E G pick cf m p s i es l nl use, wf s -> pooled p -> es <> ENil -> good_e plain_value (key_match E) es ->
  distinct (key_match E) (keys_e es) -> l <> INil -> good_i plain_value (key_match E) l -> (List.length (lines_e i es ++ lines_i i l) < m)%nat ->
  exists r p' s', NewValueFromYaml E G pick cf m p s (doc ((lines_e i es ++ lines_i i l) ++ if nl : bool then [[]] else [])) use = Ok (None, Some r, p', s') /\
    rep (hp s') (Some r) (VArray (val_i (scalar E) l)).
Proof.
  intros E G pick cf m p s i es l nl use W P NE GE DE NL GI LE.
  rewrite <- (proj2 (proj2 (plain_val E (key_match E))) _ GI). apply (proj2 (proj2 (plain_good (key_match E)))) in GI.
  apply (proj1 (proj2 (plain_good (key_match E)))) in GE.
  destruct (tree_new E G pick cf m p s i (DMap es l) nl use W (proj1 (proj2 (proj2 (pooled_empty p P)))) (conj NE (conj GE (conj DE GI))) LE)
    as (r & p' & s' & H & _ & _ & R & _).
  exists r, p', s'. split; [exact H|]. cbn [val_d] in R. destruct l; [congruence|exact R|exact R].
Qed.
Print Assumptions C72_refuted.
(** So a key with its list at its own indentation, as YAML allows, loses the key and all before it. *)
Example C72_case : let es := ECons (bs "keep") (YS (bs "1")) (ECons (bs "users") (YM 0 ENil) ENil) in
  let l := IVal (bs "ann") (IVal (bs "bob") INil) in
  lines_e 0 es ++ lines_i 0 l = map bs ["keep: 1"; "users:"; "- ann"; "- bob"]%string /\
  es <> ENil /\ good_e plain_value (key_match y0) es /\ distinct (key_match y0) (keys_e es) /\ l <> INil /\ good_i plain_value (key_match y0) l /\
  VArray (val_i (scalar y0) l) = VArray [VString (bs "ann"); VString (bs "bob")].
Proof.
  cbv zeta. split; [reflexivity|]. split; [discriminate|]. cbn [good_e good_t good_i keys_e].
  repeat match goal with
  | |- _ /\ _ => split
  | |- True => exact I
  | |- plain_key _ => plains
  | |- plain_value _ => plains
  | |- distinct _ _ => repeat constructor; vm_compute; reflexivity
  | |- _ <> _ => discriminate
  | |- ~ In _ _ => cbv; intuition discriminate
  | |- VArray _ = _ => vm_compute; reflexivity
  end.
Qed.

(** ** C73 *)
(** Comment lines, comments behind lines, trailing blanks and carriage returns make no difference,
    whatever the lines are. *)
Theorem C73_decorated : forall E G pick cf n p s a b use, decorated a b -> doc a <> [] -> Forall no_newline b ->
  List.length (last a []) <> 1%nat -> List.length (last b []) <> 1%nat -> (List.length b <= n)%nat ->
  NewValueFromYaml E G pick cf n p s (doc b) use = NewValueFromYaml E G pick cf n p s (doc a) use.
Proof.
  intros E G pick cf n p s a b use D NA F LA LB LE. unfold NewValueFromYaml. rewrite (decor_parse E G pick cf a b) by auto. reflexivity.
Qed.
Print Assumptions C73_decorated.
(** In particular: a document with carriage returns before its newlines. *)
Theorem C73_crlf : forall E G pick cf n p s a use, Forall no_newline a -> doc a <> [] ->
  Forall (fun l => l = [] \/ exists i body, l = blanks i ++ body /\ (2 <= List.length body)%nat /\ hd 0 body <> 32 /\ hd 0 body <> 35 /\ no_comment body) a ->
  (List.length a < n)%nat ->
  NewValueFromYaml E G pick cf n p s (doc (map (fun l => l ++ [13]) a ++ [[]])) use = NewValueFromYaml E G pick cf n p s (doc (a ++ [[]])) use.
Proof.
  intros E G pick cf n p s a use FN NA F LE.
  assert (NE : a <> []) by (intros ->; apply NA; reflexivity).
  apply C73_decorated.
  - clear - F. induction F as [|l a H _ IH]; [apply dc_same, dc_nil|]. cbn [map app].
    destruct H as [->|(i & body & -> & L2 & H32 & H35 & NC)]; [apply dc_empty; exact IH|].
    replace ((blanks i ++ body) ++ [13]) with (blanks i ++ body ++ [13] ++ []) by (rewrite <- app_assoc; reflexivity).
    apply dc_pad; auto. constructor; [auto|constructor].
  - intros Q. destruct a as [|l a]; [congruence|]. cbn [app doc] in Q. destruct (a ++ [[]]) eqn:Q2.
    + destruct a; discriminate.
    + destruct l; discriminate.
  - apply Forall_app. split; [|repeat constructor; intros []]. apply Forall_map. eapply Forall_impl; [|exact FN].
    intros l NL X. apply in_app_or in X as [X|[X|[]]]; [exact (NL X)|discriminate].
  - rewrite last_last. discriminate.
  - rewrite last_last. discriminate.
  - rewrite app_length, map_length. cbn [List.length]. unfold bytes in *. lia.
Qed.
Print Assumptions C73_crlf.
Example C73_case : let a := map bs ["a: x"; "b:"; "  c: #y"; ""]%string in
  let b := map bs ["# head"; "a: x  # one"; "b: "; "   # deep"; "  c: #y"; ""]%string in
  decorated a b /\ doc a <> [] /\ Forall no_newline b /\ List.length (last a []) <> 1%nat /\ List.length (last b []) <> 1%nat.
Proof.
  cbv zeta. split; [|split; [discriminate|split; [repeat constructor; cbv; intuition discriminate|split; discriminate]]].
  cbn [map]. change (bs "# head") with (blanks 0 ++ 35 :: bs " head"). apply dc_comment.
  change (bs "a: x") with (blanks 0 ++ bs "a: x"). change (bs "a: x  # one") with (blanks 0 ++ bs "a: x" ++ [32] ++ 32 :: 35 :: bs " one").
  apply dc_pad; try discriminate; [cbn; lia|apply no_commentb_ok; reflexivity|repeat constructor; auto|right; eauto|].
  change (bs "b:") with (blanks 0 ++ bs "b:"). change (bs "b: ") with (blanks 0 ++ bs "b:" ++ [32] ++ []).
  apply dc_pad; try discriminate; [cbn; lia|apply no_commentb_ok; reflexivity|repeat constructor; auto|left; auto|].
  change (bs "   # deep") with (blanks 3 ++ 35 :: bs " deep"). apply dc_comment. repeat constructor.
Qed.
(** Not so for lines of one byte: a lone dash before a carriage return is an error, and a comment
    right behind a dash is the item. *)
Theorem C73_dash_refuted :
  (exists r p' s', NewValueFromYaml y0 gr nopool 9 9 fresh_parser st0 (lines [" - a"; " -"; ""]%string) true = Ok (None, Some r, p', s') /\
     rep (hp s') (Some r) (VArray [VString (bs "a"); VArray []])) /\
  (exists p' s', NewValueFromYaml y0 gr nopool 9 9 fresh_parser st0 (doc [bs " - a" ++ [13]; bs " -" ++ [13]; []]) true = Ok (Some ErrYaml, None, p', s')) /\
  (exists r p' s', NewValueFromYaml y0 gr nopool 9 9 fresh_parser st0 (lines ["- # note"; ""]%string) true = Ok (None, Some r, p', s') /\
     rep (hp s') (Some r) (VArray [VString (bs "# note")])).
Proof.
  split; [apply yaml_view; vm_compute; reflexivity|]. split; [|apply yaml_view; vm_compute; reflexivity].
  destruct (ok_ex (fun r => (fst (fst (fst r)), snd (fst (fst r))))
    (NewValueFromYaml y0 gr nopool 9 9 fresh_parser st0 (doc [bs " - a" ++ [13]; bs " -" ++ [13]; []]) true) (Some ErrYaml, None))
    as ([[[e r] p] s] & Q1 & Q2); [vm_compute; reflexivity|].
  cbn [fst snd] in Q2. injection Q2 as -> ->. eauto.
Qed.
Print Assumptions C73_dash_refuted.
