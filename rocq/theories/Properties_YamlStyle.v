(** Properties C89-C91: what becomes of YAML outside the grammar of C70: values in flow style, document
    markers, a mapping behind a list, and lines that continue a scalar.  Each theorem is followed by
    what it assumes and by a concrete case. *)
From Coq Require Import String.
From Verif Require Import Base Values Tactics Env0 HeapModel HeapSpec HeapBase HeapConf HeapGet
  ApiSpec HeapMap HeapCalls HeapObj BsonModel BsonLoadThms YamlModel YamlSpec YamlThms YamlFlat YamlTreeSpec YamlTree YamlTreeDoc YamlStyle HeapView
  Properties_Map Properties_Clone Properties_Merge Properties_Yaml Properties_YamlTree.

(** ** C89 *)
(** Documents as in C70 whose values may also be in flow style, [{...}] or [[...]]: every such value the
    number parser rejects is the empty string, without an error; all else is as written ([loaded]). *)
Theorem C89_mapping_refuted : forall E G pick cf m p s i es nl use, wf s -> pooled p -> es <> ENil -> good_e line_value (key_match E) es ->
  distinct (key_match E) (keys_e es) -> (List.length (lines_e i es) < m)%nat ->
  exists r p' s', NewValueFromYaml E G pick cf m p s (doc (lines_e i es ++ if nl : bool then [[]] else [])) use = Ok (None, Some r, p', s') /\
    rep (hp s') (Some r) (VObject true (val_e (loaded E) es)).
Proof.
  intros E G pick cf m p s i es nl use W P NE GE DE LE.
  assert (Q : lines_e i es = lines_d i (DMap es INil)) by (cbn [lines_d lines_i]; rewrite app_nil_r; reflexivity). rewrite Q in *.
  destruct (tree_new E G pick cf m p s i (DMap es INil) nl use W (proj1 (proj2 (proj2 (pooled_empty p P)))) (conj NE (conj GE (conj DE I))) LE)
    as (r & p' & s' & H & _ & _ & R & _). exists r, p', s'. split; [exact H|exact R].
Qed.
Print Assumptions C89_mapping_refuted.
Theorem C89_list_refuted : forall E G pick cf m p s i l nl use, wf s -> pooled p -> l <> INil -> good_i line_value (key_match E) l ->
  (List.length (lines_i i l) < m)%nat ->
  exists r p' s', NewValueFromYaml E G pick cf m p s (doc (lines_i i l ++ if nl : bool then [[]] else [])) use = Ok (None, Some r, p', s') /\
    rep (hp s') (Some r) (VArray (val_i (loaded E) l)).
Proof.
  intros E G pick cf m p s i l nl use W P NE GI LE.
  destruct (tree_new E G pick cf m p s i (DList l) nl use W (proj1 (proj2 (proj2 (pooled_empty p P)))) (conj NE GI) LE)
    as (r & p' & s' & H & _ & _ & R & _). exists r, p', s'. split; [exact H|exact R].
Qed.
Print Assumptions C89_list_refuted.
Theorem C89_load_mapping_refuted : forall E G pick cf m p s s1 l k t es nl, wf s -> pooled p -> Clear s l = Ok s1 -> live s1 l -> (5 <= l)%nat ->
  let d := ECons k t es in good_e line_value (key_match E) d -> distinct (key_match E) (keys_e d) -> hd 0 k <> 9 -> (List.length (lines_e 0 d) < m)%nat ->
  exists p' s', LoadFromYaml E G pick cf m p s l (doc (lines_e 0 d ++ if nl : bool then [[]] else [])) = Ok (None, p', s') /\
    rep (hp s') (Some l) (VObject true (val_e (loaded E) d)).
Proof.
  intros E G pick cf m p s s1 l k t es nl W P CL L L5 d GE DE H9 LE.
  assert (Q : lines_e 0 d = lines_d 0 (DMap d INil)) by (cbn [lines_d lines_i]; rewrite app_nil_r; reflexivity). rewrite Q in *.
  destruct (tree_load E G pick cf m p s s1 l (DMap d INil) nl W CL L L5 (proj1 (proj2 (proj2 (pooled_empty p P))))
    (conj (ltac:(discriminate) : d <> ENil) (conj GE (conj DE I)))) as (p' & s' & H & _ & _ & R & _); auto.
  - intros k0 t0 r0 l0 Q0. injection Q0 as <- _ _ _. exact H9.
  - exists p', s'. split; [exact H|exact R].
Qed.
Print Assumptions C89_load_mapping_refuted.
Theorem C89_load_list_refuted : forall E G pick cf m p s s1 l li nl, wf s -> pooled p -> Clear s l = Ok s1 -> live s1 l -> (5 <= l)%nat ->
  li <> INil -> good_i line_value (key_match E) li -> (List.length (lines_i 0 li) < m)%nat ->
  exists p' s', LoadFromYaml E G pick cf m p s l (doc (lines_i 0 li ++ if nl : bool then [[]] else [])) = Ok (None, p', s') /\
    rep (hp s') (Some l) (VArray (val_i (loaded E) li)).
Proof.
  intros E G pick cf m p s s1 l li nl W P CL L L5 NE GI LE.
  destruct (tree_load E G pick cf m p s s1 l (DList li) nl W CL L L5 (proj1 (proj2 (proj2 (pooled_empty p P)))) (conj NE GI)) as (p' & s' & H & _ & _ & R & _); auto.
  - discriminate.
  - exists p', s'. split; [exact H|exact R].
Qed.
Print Assumptions C89_load_list_refuted.
(** A flow value that is not a number is lost whatever it holds. *)
Theorem C89_lost : forall E v, flow v = true -> x_parsefloat E v = None -> loaded E v = VString [].
Proof.
  intros E v F N. unfold loaded, scalar.
  destruct (beq v [116; 114; 117; 101]) eqn:B1; [apply beq_eq in B1; subst v; discriminate|].
  destruct (beq v [102; 97; 108; 115; 101]) eqn:B2; [apply beq_eq in B2; subst v; discriminate|]. rewrite N, F. reflexivity.
Qed.
Print Assumptions C89_lost.
Definition flow1 : yents := ECons (bs "ports") (YS (bs "[80, 443]")) (ECons (bs "env") (YM 1 (ECons (bs "a") (YS (bs "{x: 1}")) (ECons (bs "b") (YS (bs "y")) ENil))) ENil).
Ltac goods := cbn [good_e good_t good_i keys_e];
  repeat match goal with
  | |- _ /\ _ => split
  | |- True => exact I
  | |- plain_key _ => plains
  | |- line_value _ => plains
  | |- text_line _ => plains
  | |- distinct _ _ => repeat constructor; vm_compute; reflexivity
  | |- _ <> _ => discriminate
  | |- ~ In _ _ => cbv; intuition discriminate
  end.
Example C89_case : lines_e 0 flow1 = map bs ["ports: [80, 443]"; "env:"; "  a: {x: 1}"; "  b: y"]%string /\
  flow1 <> ENil /\ good_e line_value (key_match y0) flow1 /\ distinct (key_match y0) (keys_e flow1) /\
  val_e (loaded y0) flow1 = [(bs "ports", VString []); (bs "env", VObject true [(bs "a", VString []); (bs "b", VString (bs "y"))])].
Proof. split; [vm_compute; reflexivity|]. split; [discriminate|]. split; [unfold flow1; goods|]. split; [repeat constructor; vm_compute; reflexivity|vm_compute; reflexivity]. Qed.

(** ** C90 *)
Lemma starts_app i a b k c : starts i a k c -> starts i (a ++ b) k c.
Proof. intros (body & rest & -> & H). exists body, (rest ++ b). split; [reflexivity|exact H]. Qed.
Lemma starts_list E i l b : l <> INil -> good_i line_value (key_match E) l -> starts i (lines_i i l ++ b) KArr 45.
Proof.
  intros NE GI. destruct (starts_d E (fun n => n) 0 i (DList l) (conj NE GI)) as (c & SS & _ & HC). rewrite (HC l eq_refl) in SS. apply starts_app. exact SS.
Qed.
Lemma list_map_ok E i l es : good_i line_value (key_match E) l -> good_e line_value (key_match E) es -> Forall line_ok (lines_i i l ++ lines_e i es).
Proof. intros GI GE. apply Forall_app. split; [apply (proj2 (proj2 (lines_ok_all (key_match E)))); exact GI|apply (proj1 (proj2 (lines_ok_all (key_match E)))); exact GE]. Qed.
(** Mapping entries at the indentation of the list before them discard that list, without an error, when the
    last item is one line and the first key is not a number. *)
Theorem C90_list_refuted : forall E G pick cf m p s i l k t r nl use, let es := ECons k t r in
  wf s -> pooled p -> l <> INil -> good_i line_value (key_match E) l -> ends_flat l = true -> good_e line_value (key_match E) es ->
  distinct (key_match E) (keys_e es) -> x_str2int E k (-1) = -1 -> (List.length (lines_i i l ++ lines_e i es) < m)%nat ->
  exists r p' s', NewValueFromYaml E G pick cf m p s (doc ((lines_i i l ++ lines_e i es) ++ if nl : bool then [[]] else [])) use = Ok (None, Some r, p', s') /\
    rep (hp s') (Some r) (VObject true (val_e (loaded E) es)).
Proof.
  intros E G pick cf m p s i l k t r nl use es W P NE GI EF GE DE NUM LE.
  destruct (new_into E G pick cf m p s i _ KArr 45 _ nl use W (proj1 (proj2 (proj2 (pooled_empty p P)))) (list_map_ok E i l es GI GE)
    (starts_list E i l _ NE GI) ltac:(discriminate) (list_map_into E G pick cf i l k t r NE GI EF GE DE NUM) LE) as (r0 & p' & s' & H & _ & _ & R & _).
  exists r0, p', s'. split; [exact H|exact R].
Qed.
Print Assumptions C90_list_refuted.
Theorem C90_load_list_refuted : forall E G pick cf m p s s1 l0 l k t r nl, let es := ECons k t r in
  wf s -> pooled p -> Clear s l0 = Ok s1 -> live s1 l0 -> (5 <= l0)%nat ->
  l <> INil -> good_i line_value (key_match E) l -> ends_flat l = true -> good_e line_value (key_match E) es ->
  distinct (key_match E) (keys_e es) -> x_str2int E k (-1) = -1 -> (List.length (lines_i 0 l ++ lines_e 0 es) < m)%nat ->
  exists p' s', LoadFromYaml E G pick cf m p s l0 (doc ((lines_i 0 l ++ lines_e 0 es) ++ if nl : bool then [[]] else [])) = Ok (None, p', s') /\
    rep (hp s') (Some l0) (VObject true (val_e (loaded E) es)).
Proof.
  intros E G pick cf m p s s1 l0 l k t r nl es W P CL L L5 NE GI EF GE DE NUM LE.
  destruct (load_into E G pick cf m p s s1 l0 _ KArr 45 _ nl W CL L L5 (proj1 (proj2 (proj2 (pooled_empty p P)))) (list_map_ok E 0 l es GI GE)
    (starts_list E 0 l _ NE GI) ltac:(discriminate) ltac:(discriminate) (list_map_into E G pick cf 0 l k t r NE GI EF GE DE NUM) LE) as (p' & s' & H & _ & _ & R & _).
  exists p', s'. split; [exact H|exact R].
Qed.
Print Assumptions C90_load_list_refuted.
(** When the last item goes on below its first line, the same document is rejected. *)
Theorem C90_rejected : forall E G pick cf m p s i l k t r nl use, let es := ECons k t r in
  wf s -> pooled p -> l <> INil -> good_i line_value (key_match E) l -> ends_flat l = false -> good_e line_value (key_match E) es ->
  (List.length (lines_i i l ++ lines_e i es) < m)%nat ->
  exists p' s', NewValueFromYaml E G pick cf m p s (doc ((lines_i i l ++ lines_e i es) ++ if nl : bool then [[]] else [])) use = Ok (Some ErrYaml, None, p', s').
Proof.
  intros E G pick cf m p s i l k t r nl use es W P NE GI EF GE LE.
  exact (new_fails E G pick cf m p s i _ KArr 45 nl use W (proj1 (proj2 (proj2 (pooled_empty p P)))) (list_map_ok E i l es GI GE)
    (starts_list E i l _ NE GI) ltac:(discriminate) (list_map_fails E G pick cf i l k t r NE GI EF GE) LE).
Qed.
Print Assumptions C90_rejected.
Theorem C90_load_rejected : forall E G pick cf m p s s1 l0 l k t r nl, let es := ECons k t r in
  wf s -> pooled p -> Clear s l0 = Ok s1 -> live s1 l0 -> (5 <= l0)%nat ->
  l <> INil -> good_i line_value (key_match E) l -> ends_flat l = false -> good_e line_value (key_match E) es ->
  (List.length (lines_i 0 l ++ lines_e 0 es) < m)%nat ->
  exists p' s', LoadFromYaml E G pick cf m p s l0 (doc ((lines_i 0 l ++ lines_e 0 es) ++ if nl : bool then [[]] else [])) = Ok (Some ErrYaml, p', s').
Proof.
  intros E G pick cf m p s s1 l0 l k t r nl es W P CL L L5 NE GI EF GE LE.
  exact (load_fails E G pick cf m p s s1 l0 _ KArr 45 nl W CL L L5 (proj1 (proj2 (proj2 (pooled_empty p P)))) (list_map_ok E 0 l es GI GE)
    (starts_list E 0 l _ NE GI) ltac:(discriminate) ltac:(discriminate) (list_map_fails E G pick cf 0 l k t r NE GI EF GE) LE).
Qed.
Print Assumptions C90_load_rejected.
Example C90_case : let l := IMap (bs "a") (bs "1") ENil (IVal (bs "x") INil) in
  let l' := IVal (bs "x") (IMap (bs "a") (bs "1") (ECons (bs "b") (YS (bs "2")) ENil) INil) in let es := ECons (bs "k") (YS (bs "v")) ENil in
  lines_i 0 l ++ lines_e 0 es = map bs ["- a: 1"; "- x"; "k: v"]%string /\ lines_i 0 l' ++ lines_e 0 es = map bs ["- x"; "- a: 1"; "  b: 2"; "k: v"]%string /\
  good_i line_value (key_match y0) l /\ ends_flat l = true /\ good_i line_value (key_match y0) l' /\ ends_flat l' = false /\
  good_e line_value (key_match y0) es /\ distinct (key_match y0) (keys_e es) /\ x_str2int y0 (bs "k") (-1) = -1.
Proof.
  cbv zeta. split; [vm_compute; reflexivity|]. split; [vm_compute; reflexivity|]. split; [goods|]. split; [reflexivity|]. split; [goods|]. split; [reflexivity|].
  split; [goods|]. split; [goods|vm_compute; reflexivity].
Qed.
(** The marker [---] as first line is taken for a list item: any document behind it reads as behind [- --]. *)
Theorem C90_marker_refuted : forall E G pick cf m p s ls use, Forall no_newline ls -> (S (List.length ls) <= m)%nat ->
  NewValueFromYaml E G pick cf m p s (doc (bs "---" :: ls)) use = NewValueFromYaml E G pick cf m p s (doc (bs "- --" :: ls)) use.
Proof. intros. apply marker_new; auto. Qed.
Print Assumptions C90_marker_refuted.
Theorem C90_load_marker_refuted : forall E G pick cf m p s l ls, Forall no_newline ls -> (S (List.length ls) <= m)%nat ->
  LoadFromYaml E G pick cf m p s l (doc (bs "---" :: ls)) = LoadFromYaml E G pick cf m p s l (doc (bs "- --" :: ls)).
Proof. intros. apply marker_load; auto. Qed.
Print Assumptions C90_load_marker_refuted.
Lemma dashes_good E : good_i line_value (key_match E) (IVal (bs "--") INil).
Proof. goods. Qed.
Lemma lines_nn E i es nl : good_e line_value (key_match E) es -> Forall no_newline (lines_e i es ++ if nl : bool then [[]] else []).
Proof.
  intros GE. apply Forall_app. split; [|destruct nl; repeat constructor; intros []].
  eapply Forall_impl; [|apply (proj1 (proj2 (lines_ok_all (key_match E)))); exact GE]. intros l [_ H]. exact H.
Qed.
(** A mapping behind it is read as it is, when its first key is not a number. *)
Theorem C90_marker_mapping : forall E G pick cf m p s k t r nl use, let es := ECons k t r in wf s -> pooled p ->
  good_e line_value (key_match E) es -> distinct (key_match E) (keys_e es) -> x_str2int E k (-1) = -1 -> (S (S (List.length (lines_e 0 es))) <= m)%nat ->
  exists r p' s', NewValueFromYaml E G pick cf m p s (doc (bs "---" :: lines_e 0 es ++ if nl : bool then [[]] else [])) use = Ok (None, Some r, p', s') /\
    rep (hp s') (Some r) (VObject true (val_e (loaded E) es)).
Proof.
  intros E G pick cf m p s k t r nl use es W P GE DE NUM LE. rewrite C90_marker_refuted.
  - apply (C90_list_refuted E G pick cf m p s 0 (IVal (bs "--") INil) k t r nl use W P ltac:(discriminate) (dashes_good E) eq_refl GE DE NUM).
    cbn [lines_i app List.length]. subst es. lia.
  - apply (lines_nn E); auto.
  - rewrite app_length. destruct nl; cbn [List.length]; lia.
Qed.
Print Assumptions C90_marker_mapping.
Theorem C90_load_marker_mapping : forall E G pick cf m p s s1 l k t r nl, let es := ECons k t r in wf s -> pooled p ->
  Clear s l = Ok s1 -> live s1 l -> (5 <= l)%nat ->
  good_e line_value (key_match E) es -> distinct (key_match E) (keys_e es) -> x_str2int E k (-1) = -1 -> (S (S (List.length (lines_e 0 es))) <= m)%nat ->
  exists p' s', LoadFromYaml E G pick cf m p s l (doc (bs "---" :: lines_e 0 es ++ if nl : bool then [[]] else [])) = Ok (None, p', s') /\
    rep (hp s') (Some l) (VObject true (val_e (loaded E) es)).
Proof.
  intros E G pick cf m p s s1 l k t r nl es W P CL L L5 GE DE NUM LE. rewrite C90_load_marker_refuted.
  - apply (C90_load_list_refuted E G pick cf m p s s1 l (IVal (bs "--") INil) k t r nl W P CL L L5 ltac:(discriminate) (dashes_good E) eq_refl GE DE NUM).
    cbn [lines_i app List.length]. subst es. lia.
  - apply (lines_nn E); auto.
  - rewrite app_length. destruct nl; cbn [List.length]; lia.
Qed.
Print Assumptions C90_load_marker_mapping.
(** A list behind it gets one element too many. *)
Theorem C90_marker_list_refuted : forall E G pick cf m p s l nl use, wf s -> pooled p ->
  good_i line_value (key_match E) l -> (S (S (List.length (lines_i 0 l))) <= m)%nat ->
  exists r p' s', NewValueFromYaml E G pick cf m p s (doc (bs "---" :: lines_i 0 l ++ if nl : bool then [[]] else [])) use = Ok (None, Some r, p', s') /\
    rep (hp s') (Some r) (VArray (loaded E (bs "--") :: val_i (loaded E) l)).
Proof.
  intros E G pick cf m p s l nl use W P GI LE. rewrite C90_marker_refuted.
  - assert (GI' : good_i line_value (key_match E) (IVal (bs "--") l)).
    { destruct (dashes_good E) as (A & B & _). split; [exact A|]. split; [exact B|exact GI]. }
    apply (C89_list_refuted E G pick cf m p s 0 (IVal (bs "--") l) nl use W P ltac:(discriminate) GI'). cbn [lines_i List.length]. lia.
  - apply Forall_app. split; [|destruct nl; repeat constructor; intros []].
    eapply Forall_impl; [|apply (proj2 (proj2 (lines_ok_all (key_match E)))); exact GI]. intros x [_ H]. exact H.
  - rewrite app_length. destruct nl; cbn [List.length]; lia.
Qed.
Print Assumptions C90_marker_list_refuted.
(** With a number as first key the document becomes a list of what the keys hold; indented, it becomes the one item. *)
Theorem C90_marker_number_refuted :
  (exists r p' s', NewValueFromYaml y0 gr nopool 9 9 fresh_parser st0 (lines ["---"; "1: a"; "2: b"]%string) true = Ok (None, Some r, p', s') /\
     rep (hp s') (Some r) (VArray [VString (bs "--"); VString (bs "a"); VString (bs "b")])) /\
  (exists r p' s', NewValueFromYaml y0 gr nopool 9 9 fresh_parser st0 (lines ["1: a"; "2: b"]%string) true = Ok (None, Some r, p', s') /\
     rep (hp s') (Some r) (VObject true [(bs "1", VString (bs "a")); (bs "2", VString (bs "b"))])) /\
  (exists r p' s', NewValueFromYaml y0 gr nopool 9 9 fresh_parser st0 (lines ["---"; "  a: x"; "  b: y"]%string) true = Ok (None, Some r, p', s') /\
     rep (hp s') (Some r) (VArray [VObject true [(bs "a", VString (bs "x")); (bs "b", VString (bs "y"))]])).
Proof. split; [|split]; apply yaml_view; vm_compute; reflexivity. Qed.
Print Assumptions C90_marker_number_refuted.
(** A marker of either kind, [---] or [...], behind any document that loads is an error, whatever follows. *)
Theorem C90_second : forall E G pick cf m p s ls mark rest use r p1 s1, pooled p -> Forall no_newline (ls ++ rest) ->
  (List.length ls + S (List.length rest) <= m)%nat -> mark = bs "---" \/ mark = bs "..." ->
  NewValueFromYaml E G pick cf m p s (doc ls) use = Ok (None, Some r, p1, s1) ->
  exists p' s', NewValueFromYaml E G pick cf m p s (doc (ls ++ mark :: rest)) use = Ok (Some ErrYaml, None, p', s').
Proof.
  intros E G pick cf m p s ls mark rest use r p1 s1 P F LE MK Q.
  exact (late_new E G pick cf m p s ls mark rest use r p1 s1 (proj1 (pooled_empty p P)) F LE MK Q).
Qed.
Print Assumptions C90_second.
Example C90_second_case : exists r p1 s1, NewValueFromYaml y0 gr nopool 9 9 fresh_parser st0 (lines ["a: x"; "b: y"]%string) true = Ok (None, Some r, p1, s1).
Proof.
  edestruct (yaml_view ["a: x"; "b: y"]%string) as (r & p1 & s1 & H & _); [vm_compute; reflexivity|]. exists r, p1, s1. exact H.
Qed.

(** The same for LoadFromYaml, behind any document that loads something into the receiver. *)
Theorem C90_load_second : forall E G pick cf m p s l w l1 ls mark rest p1 s1, (5 <= l)%nat -> Forall no_newline ((l1 :: ls) ++ rest) ->
  (List.length (l1 :: ls) + S (List.length rest) <= m)%nat ->
  Forall (fun z => z = 32 \/ z = 13 \/ z = 10 \/ z = 9) w -> l1 <> [] -> ~ (hd 0 l1 = 32 \/ hd 0 l1 = 13 \/ hd 0 l1 = 10 \/ hd 0 l1 = 9) ->
  mark = bs "---" \/ mark = bs "..." ->
  LoadFromYaml E G pick cf m p s l (w ++ doc (l1 :: ls)) = Ok (None, p1, s1) ->
  ~ rep (hp s1) (Some l) (VObject false []) -> ~ rep (hp s1) (Some l) (VArray []) ->
  exists p' s', LoadFromYaml E G pick cf m p s l (w ++ doc ((l1 :: ls) ++ mark :: rest)) = Ok (Some ErrYaml, p', s').
Proof. exact late_load. Qed.
Print Assumptions C90_load_second.
(** A comment loads nothing: a marker behind it is an item again. *)
Example C90_load_second_case :
  let s := snd (NewCacheValue gr st0 None TObject) in let l := fst (NewCacheValue gr st0 None TObject) in
  (exists p1 s1, LoadFromYaml y0 gr nopool 9 9 fresh_parser s l (bs " " ++ lines ["a: x"; "b: y"]%string) = Ok (None, p1, s1) /\
     ~ rep (hp s1) (Some l) (VObject false []) /\ ~ rep (hp s1) (Some l) (VArray [])) /\
  (exists p1 s1, LoadFromYaml y0 gr nopool 9 9 fresh_parser s l (lines ["# x"; "---"; "- y"]%string) = Ok (None, p1, s1) /\
     rep (hp s1) (Some l) (VArray [VString (bs "--"); VString (bs "y")])).
Proof.
  intros s l. assert (H : forall ls v, ok_map (fun r => (fst (fst r), view 4 (hp (snd r)) (Some l))) (LoadFromYaml y0 gr nopool 9 9 fresh_parser s l ls) = Some (None, Some v) ->
    exists p1 s1, LoadFromYaml y0 gr nopool 9 9 fresh_parser s l ls = Ok (None, p1, s1) /\ rep (hp s1) (Some l) v).
  { intros ls v Q. destruct (ok_ex _ _ _ Q) as ([[e p] s1] & Q1 & Q2). cbn [fst snd] in Q2. apply pair_equal_spec in Q2 as [-> V].
    exists p, s1. split; [exact Q1|]. exact (view_rep _ _ _ _ V). }
  split.
  - destruct (H (bs " " ++ lines ["a: x"; "b: y"]%string) (VObject true [(bs "a", VString (bs "x")); (bs "b", VString (bs "y"))])) as (p1 & s1 & Q & R); [vm_compute; reflexivity|].
    exists p1, s1. split; [exact Q|]. split; intros R'; inversion R; subst; inversion R'; subst; try congruence;
      match goal with A : Forall2 _ (c_kvs ?c) [], B : Forall2 _ (c_kvs ?c) (_ :: _) |- _ => inversion A as [X|]; rewrite <- X in B; inversion B end.
  - apply H. vm_compute. reflexivity.
Qed.

(** ** C91 *)
Lemma starts_entry E i es1 k v b : good_e line_value (key_match E) es1 -> distinct (key_match E) (keys_e es1) -> plain_key k -> line_value v ->
  starts i (lines_e i es1 ++ flat_line i (k, v) :: b) KObj (hd 0 (hd k (keys_e es1))).
Proof.
  intros GE DE PK PV. destruct es1 as [|k1 t1 r1].
  - assert (GD : good_d E (DMap (ECons k (YS v) ENil) INil)).
    { split; [discriminate|]. split; [exact (conj PK (conj PV I))|]. split; [repeat constructor|exact I]. }
    destruct (starts_d E (fun n => n) 0 i _ GD) as (c & SS & HC & _). rewrite (HC k (YS v) ENil INil eq_refl) in SS.
    change (lines_e i ENil ++ flat_line i (k, v) :: b) with ([flat_line i (k, v)] ++ b). apply starts_app. exact SS.
  - assert (GD : good_d E (DMap (ECons k1 t1 r1) INil)) by (split; [discriminate|]; split; [exact GE|]; split; [exact DE|exact I]).
    destruct (starts_d E (fun n => n) 0 i _ GD) as (c & SS & HC & _). rewrite (HC k1 t1 r1 INil eq_refl) in SS. cbn [lines_d lines_i] in SS. rewrite app_nil_r in SS.
    apply starts_app. exact SS.
Qed.
Lemma distinct_app same a b : distinct same (a ++ b) -> distinct same a.
Proof.
  unfold distinct. induction a as [|x a IH]; intros H; [constructor|]. cbn [app] in H. inversion H as [|? ? A B]; subst.
  constructor; [apply Forall_app in A; apply A|auto].
Qed.
Lemma flat_ok i k v : plain_key k -> line_value v -> line_ok (flat_line i (k, v)).
Proof.
  intros PK PV. assert (F : Forall line_ok (lines_e i (ECons k (YS v) ENil))).
  { apply (proj1 (proj2 (lines_ok_all (fun _ _ => false)))). exact (conj PK (conj PV I)). }
  inversion F; auto.
Qed.
Lemma text_ok i t : text_line t -> line_ok (blanks i ++ t).
Proof. intros (L & _ & _ & N & _). split; [rewrite app_length; unfold bytes in *; lia|apply blanks_nn; exact N]. Qed.
(** A mapping indented below a scalar takes its place: the scalar is lost without an error, wherever in the mapping it stands. *)
Theorem C91_over_refuted : forall E G pick cf m p s i es1 k v d es es2 nl use, wf s -> pooled p ->
  good_e line_value (key_match E) es1 -> plain_key k -> line_value v -> es <> ENil -> good_e line_value (key_match E) es ->
  distinct (key_match E) (keys_e es) -> good_e line_value (key_match E) es2 -> distinct (key_match E) (keys_e es1 ++ k :: keys_e es2) ->
  let ls := lines_e i es1 ++ (flat_line i (k, v) :: lines_e (i + S d) es) ++ lines_e i es2 in (List.length ls < m)%nat ->
  exists r p' s', NewValueFromYaml E G pick cf m p s (doc (ls ++ if nl : bool then [[]] else [])) use = Ok (None, Some r, p', s') /\
    rep (hp s') (Some r) (VObject true (val_e (loaded E) es1 ++ (k, VObject true (val_e (loaded E) es)) :: val_e (loaded E) es2)).
Proof.
  intros E G pick cf m p s i es1 k v d es es2 nl use W P G1 PK PV NE GE DE G2 DS ls LE.
  pose proof (proj1 (proj2 (lines_ok_all (key_match E)))) as OKE.
  destruct (new_into E G pick cf m p s i ls KObj (hd 0 (hd k (keys_e es1)))
    (VObject true (val_e (loaded E) es1 ++ (k, VObject true (val_e (loaded E) es)) :: val_e (loaded E) es2)) nl use W (proj1 (proj2 (proj2 (pooled_empty p P)))))
    as (r0 & p' & s' & H & _ & _ & R & _); auto.
  - subst ls. apply Forall_app. split; [apply OKE; auto|]. cbn [app]. constructor; [apply flat_ok; auto|]. apply Forall_app. split; apply OKE; auto.
  - apply (starts_entry E); auto. exact (distinct_app _ _ _ DS).
  - discriminate.
  - apply entry_into; auto. apply entry_map; auto.
  - exists r0, p', s'. split; [exact H|exact R].
Qed.
Print Assumptions C91_over_refuted.
(** A line of text indented below a scalar, or below the [|] or [>] of a block scalar, becomes a key: the scalar is lost and
    the value is an object whose only key is the text. *)
Theorem C91_text_refuted : forall E G pick cf m p s i es1 k v d t es2 nl use, wf s -> pooled p ->
  good_e line_value (key_match E) es1 -> plain_key k -> line_value v -> text_line t ->
  good_e line_value (key_match E) es2 -> distinct (key_match E) (keys_e es1 ++ k :: keys_e es2) ->
  let ls := lines_e i es1 ++ [flat_line i (k, v); blanks (i + S d) ++ t] ++ lines_e i es2 in (List.length ls < m)%nat ->
  exists r p' s', NewValueFromYaml E G pick cf m p s (doc (ls ++ if nl : bool then [[]] else [])) use = Ok (None, Some r, p', s') /\
    rep (hp s') (Some r) (VObject true (val_e (loaded E) es1 ++ (k, VObject true [(t, VObject false [])]) :: val_e (loaded E) es2)).
Proof.
  intros E G pick cf m p s i es1 k v d t es2 nl use W P G1 PK PV TL G2 DS ls LE.
  pose proof (proj1 (proj2 (lines_ok_all (key_match E)))) as OKE.
  destruct (new_into E G pick cf m p s i ls KObj (hd 0 (hd k (keys_e es1)))
    (VObject true (val_e (loaded E) es1 ++ (k, VObject true [(t, VObject false [])]) :: val_e (loaded E) es2)) nl use W (proj1 (proj2 (proj2 (pooled_empty p P)))))
    as (r0 & p' & s' & H & _ & _ & R & _); auto.
  - subst ls. apply Forall_app. split; [apply OKE; auto|]. cbn [app]. constructor; [apply flat_ok; auto|]. constructor; [apply text_ok; auto|apply OKE; auto].
  - apply (starts_entry E); auto. exact (distinct_app _ _ _ DS).
  - discriminate.
  - apply entry_into; auto. apply entry_text; auto.
  - exists r0, p', s'. split; [exact H|exact R].
Qed.
Print Assumptions C91_text_refuted.
(** Both through [LoadFromYaml]. *)
Theorem C91_load_over_refuted : forall E G pick cf m p s s1 l es1 k v d es es2 nl, wf s -> pooled p -> Clear s l = Ok s1 -> live s1 l -> (5 <= l)%nat ->
  good_e line_value (key_match E) es1 -> plain_key k -> line_value v -> es <> ENil -> good_e line_value (key_match E) es ->
  distinct (key_match E) (keys_e es) -> good_e line_value (key_match E) es2 -> distinct (key_match E) (keys_e es1 ++ k :: keys_e es2) ->
  hd 0 (hd k (keys_e es1)) <> 9 ->
  let ls := lines_e 0 es1 ++ (flat_line 0 (k, v) :: lines_e (S d) es) ++ lines_e 0 es2 in (List.length ls < m)%nat ->
  exists p' s', LoadFromYaml E G pick cf m p s l (doc (ls ++ if nl : bool then [[]] else [])) = Ok (None, p', s') /\
    rep (hp s') (Some l) (VObject true (val_e (loaded E) es1 ++ (k, VObject true (val_e (loaded E) es)) :: val_e (loaded E) es2)).
Proof.
  intros E G pick cf m p s s1 l es1 k v d es es2 nl W P CL L L5 G1 PK PV NE GE DE G2 DS H9 ls LE.
  pose proof (proj1 (proj2 (lines_ok_all (key_match E)))) as OKE.
  destruct (load_into E G pick cf m p s s1 l ls KObj (hd 0 (hd k (keys_e es1)))
    (VObject true (val_e (loaded E) es1 ++ (k, VObject true (val_e (loaded E) es)) :: val_e (loaded E) es2)) nl W CL L L5 (proj1 (proj2 (proj2 (pooled_empty p P)))))
    as (p' & s' & H & _ & _ & R & _); auto.
  - subst ls. apply Forall_app. split; [apply OKE; auto|]. cbn [app]. constructor; [apply flat_ok; auto|]. apply Forall_app. split; apply OKE; auto.
  - apply (starts_entry E); auto. exact (distinct_app _ _ _ DS).
  - discriminate.
  - apply entry_into; auto. apply (entry_map E G pick cf 0); auto.
  - exists p', s'. split; [exact H|exact R].
Qed.
Print Assumptions C91_load_over_refuted.
Theorem C91_load_text_refuted : forall E G pick cf m p s s1 l es1 k v d t es2 nl, wf s -> pooled p -> Clear s l = Ok s1 -> live s1 l -> (5 <= l)%nat ->
  good_e line_value (key_match E) es1 -> plain_key k -> line_value v -> text_line t ->
  good_e line_value (key_match E) es2 -> distinct (key_match E) (keys_e es1 ++ k :: keys_e es2) -> hd 0 (hd k (keys_e es1)) <> 9 ->
  let ls := lines_e 0 es1 ++ [flat_line 0 (k, v); blanks (S d) ++ t] ++ lines_e 0 es2 in (List.length ls < m)%nat ->
  exists p' s', LoadFromYaml E G pick cf m p s l (doc (ls ++ if nl : bool then [[]] else [])) = Ok (None, p', s') /\
    rep (hp s') (Some l) (VObject true (val_e (loaded E) es1 ++ (k, VObject true [(t, VObject false [])]) :: val_e (loaded E) es2)).
Proof.
  intros E G pick cf m p s s1 l es1 k v d t es2 nl W P CL L L5 G1 PK PV TL G2 DS H9 ls LE.
  pose proof (proj1 (proj2 (lines_ok_all (key_match E)))) as OKE.
  destruct (load_into E G pick cf m p s s1 l ls KObj (hd 0 (hd k (keys_e es1)))
    (VObject true (val_e (loaded E) es1 ++ (k, VObject true [(t, VObject false [])]) :: val_e (loaded E) es2)) nl W CL L L5 (proj1 (proj2 (proj2 (pooled_empty p P)))))
    as (p' & s' & H & _ & _ & R & _); auto.
  - subst ls. apply Forall_app. split; [apply OKE; auto|]. cbn [app]. constructor; [apply flat_ok; auto|]. constructor; [apply text_ok; auto|apply OKE; auto].
  - apply (starts_entry E); auto. exact (distinct_app _ _ _ DS).
  - discriminate.
  - apply entry_into; auto. apply (entry_text E G pick cf 0); auto.
  - exists p', s'. split; [exact H|exact R].
Qed.
Print Assumptions C91_load_text_refuted.
(** Two lines of text are an error, whatever follows. *)
Theorem C91_texts : forall E G pick cf m p s i es1 k v d t t' rest nl use, wf s -> pooled p ->
  good_e line_value (key_match E) es1 -> plain_key k -> line_value v -> text_line t -> text_line t' ->
  distinct (key_match E) (keys_e es1 ++ [k]) -> Forall line_ok rest ->
  let ls := lines_e i es1 ++ [flat_line i (k, v); blanks (i + S d) ++ t; blanks (i + S d) ++ t'] ++ rest in (List.length ls < m)%nat ->
  exists p' s', NewValueFromYaml E G pick cf m p s (doc (ls ++ if nl : bool then [[]] else [])) use = Ok (Some ErrYaml, None, p', s').
Proof.
  intros E G pick cf m p s i es1 k v d t t' rest nl use W P G1 PK PV TL TL' DS FR ls LE.
  pose proof (proj1 (proj2 (lines_ok_all (key_match E)))) as OKE.
  apply (new_fails E G pick cf m p s i ls KObj (hd 0 (hd k (keys_e es1))) nl use W (proj1 (proj2 (proj2 (pooled_empty p P))))); auto.
  - subst ls. apply Forall_app. split; [apply OKE; auto|]. cbn [app]. constructor; [apply flat_ok; auto|]. constructor; [apply text_ok; auto|].
    constructor; [apply text_ok; auto|exact FR].
  - apply (starts_entry E); auto. exact (distinct_app _ _ _ DS).
  - discriminate.
  - apply (entry_fails E G pick cf i es1 _ k); auto. apply entry_texts; auto.
Qed.
Print Assumptions C91_texts.
Example C91_case : let es1 := ECons (bs "a") (YS (bs "1")) ENil in let es2 := ECons (bs "z") (YS (bs "2")) ENil in
  lines_e 0 es1 ++ [flat_line 0 (bs "text", bs "|"); blanks (0 + S 1) ++ bs "some words"] ++ lines_e 0 es2 = map bs ["a: 1"; "text: |"; "  some words"; "z: 2"]%string /\
  good_e line_value (key_match y0) es1 /\ plain_key (bs "text") /\ line_value (bs "|") /\ text_line (bs "some words") /\
  good_e line_value (key_match y0) es2 /\ distinct (key_match y0) (keys_e es1 ++ bs "text" :: keys_e es2) /\
  (let es := ECons (bs "b") (YS (bs "3")) ENil in
   flat_line 0 (bs "text", bs "old") :: lines_e (0 + S 1) es = map bs ["text: old"; "  b: 3"]%string /\
   es <> ENil /\ good_e line_value (key_match y0) es /\ distinct (key_match y0) (keys_e es)).
Proof.
  cbv zeta. split; [vm_compute; reflexivity|]. split; [goods|]. split; [goods|]. split; [goods|]. split; [|split; [goods|split; [goods|]]].
  - split; [cbn; lia|]. split; [split; cbv; intuition discriminate|]. split; [apply no_commentb_ok; reflexivity|]. repeat split; try discriminate; cbv; intuition discriminate.
  - split; [vm_compute; reflexivity|]. split; [discriminate|]. split; goods.
Qed.
