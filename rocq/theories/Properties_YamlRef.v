(** Properties C85 and C86: anchors and aliases on scalars; documents are loaded as trees.  Each theorem is
    followed by what it assumes and by a concrete case. *)
From Coq Require Import String.
From Verif Require Import Base Values Tactics Env0 BsonModel HeapModel MsgLoadModel BsonLoadModel HeapSpec HeapBase HeapConf HeapGet
  ApiSpec HeapMap HeapCalls HeapObj HeapForce HeapTree HeapClone BsonLoadThms OwnWalk YamlModel YamlSpec YamlThms YamlTreeSpec YamlTree YamlTreeDoc YamlRefSpec YamlRef YamlRefDoc
  HeapView Properties_Map Properties_Clone Properties_Merge Properties_MsgLoad Properties_BsonLoad Properties_Yaml Properties_YamlTree.

(** No text that starts with an ampersand or an asterisk is a number. *)
Definition refs_no_number (E : env) : Prop :=
  (forall r, x_parsefloat E (38 :: r) = None) /\ (forall r, x_parsefloat E (42 :: r) = None).

(** ** C85 *)
(** Nested documents in which scalars carry anchors and stand as aliases: every alias reads as the scalar at the
    latest anchor of its name above it, wherever in the document that anchor is; an alias without one is text. *)
Theorem C85_mapping : forall E G pick cf m p s i es nl use, refs_no_number E -> (0 < cf)%nat -> wf s -> pooled p -> es <> RNil ->
  rgood_e E (key_match E) [] es -> distinct (key_match E) (keys_r es) -> (List.length (rlines_e i es) < m)%nat ->
  exists r p' s', NewValueFromYaml E G pick cf m p s (doc (rlines_e i es ++ if nl : bool then [[]] else [])) use = Ok (None, Some r, p', s') /\
    wf s' /\ live s' r /\ rep (hp s') (Some r) (VObject true (rval_e E [] es)) /\
    (forall x, live s x -> hp s' x = hp s x /\ live s' x) /\
    (forall x, reach (hp s') r x -> (5 <= x)%nat /\ ~ live s x /\ live s' x) /\
    apart (hp s') r (VObject true (rval_e E [] es)).
Proof.
  intros E G pick cf m p s i es nl use [N1 N2] CF W P NE GE DE LE. destruct (pooled_empty p P) as (_ & _ & ST & US).
  destruct (ref_new_own E G pick cf CF N1 N2 m p s i (DRMap es) nl use W ST US (conj NE (conj GE DE)) LE) as (r & p' & s' & A & B & C & D & F & K & DD & O).
  exists r, p', s'. split; [exact A|]. split; [exact B|]. split; [exact C|]. split; [exact D|]. split; [exact F|]. split; [exact K|exact (own_apart _ _ _ _ O)].
Qed.
Print Assumptions C85_mapping.
Theorem C85_list : forall E G pick cf m p s i l nl use, refs_no_number E -> (0 < cf)%nat -> wf s -> pooled p -> l <> LNil ->
  rgood_i E (key_match E) [] l -> (List.length (rlines_i i l) < m)%nat ->
  exists r p' s', NewValueFromYaml E G pick cf m p s (doc (rlines_i i l ++ if nl : bool then [[]] else [])) use = Ok (None, Some r, p', s') /\
    wf s' /\ live s' r /\ rep (hp s') (Some r) (VArray (rval_i E [] l)) /\
    (forall x, live s x -> hp s' x = hp s x /\ live s' x) /\
    (forall x, reach (hp s') r x -> (5 <= x)%nat /\ ~ live s x /\ live s' x) /\
    apart (hp s') r (VArray (rval_i E [] l)).
Proof.
  intros E G pick cf m p s i l nl use [N1 N2] CF W P NE GE LE. destruct (pooled_empty p P) as (_ & _ & ST & US).
  destruct (ref_new_own E G pick cf CF N1 N2 m p s i (DRList l) nl use W ST US (conj NE GE) LE) as (r & p' & s' & A & B & C & D & F & K & DD & O).
  exists r, p', s'. split; [exact A|]. split; [exact B|]. split; [exact C|]. split; [exact D|]. split; [exact F|]. split; [exact K|exact (own_apart _ _ _ _ O)].
Qed.
Print Assumptions C85_list.
(** Both through [LoadFromYaml]. *)
Theorem C85_load_mapping : forall E G pick cf m p s s1 l k t es nl, refs_no_number E -> (0 < cf)%nat -> wf s -> pooled p ->
  Clear s l = Ok s1 -> live s1 l -> (5 <= l)%nat ->
  let d := RCons k t es in rgood_e E (key_match E) [] d -> distinct (key_match E) (keys_r d) -> hd 0 k <> 9 -> (List.length (rlines_e 0 d) < m)%nat ->
  exists p' s', LoadFromYaml E G pick cf m p s l (doc (rlines_e 0 d ++ if nl : bool then [[]] else [])) = Ok (None, p', s') /\ wf s' /\ live s' l /\
    rep (hp s') (Some l) (VObject true (rval_e E [] d)) /\ (forall x, live s1 x -> x <> l -> hp s' x = hp s1 x /\ live s' x) /\
    (forall x, reach (hp s') l x -> x = l \/ ~ live s1 x) /\ apart (hp s') l (VObject true (rval_e E [] d)).
Proof.
  intros E G pick cf m p s s1 l k t es nl [N1 N2] CF W P CL L L5 d GE DE H9 LE. destruct (pooled_empty p P) as (_ & _ & ST & US).
  destruct (ref_load_own E G pick cf CF N1 N2 m p s s1 l (DRMap d) nl W CL L L5 ST US) as (p' & s' & A & B & C & D & F & K & DD & O); auto.
  - split; [discriminate|auto].
  - intros k0 t0 r0 Q0. injection Q0 as <- _ _. exact H9.
  - exists p', s'. split; [exact A|]. split; [exact B|]. split; [exact C|]. split; [exact D|]. split; [exact F|]. split; [exact K|exact (own_apart _ _ _ _ O)].
Qed.
Print Assumptions C85_load_mapping.
Theorem C85_load_list : forall E G pick cf m p s s1 l li nl, refs_no_number E -> (0 < cf)%nat -> wf s -> pooled p ->
  Clear s l = Ok s1 -> live s1 l -> (5 <= l)%nat ->
  li <> LNil -> rgood_i E (key_match E) [] li -> (List.length (rlines_i 0 li) < m)%nat ->
  exists p' s', LoadFromYaml E G pick cf m p s l (doc (rlines_i 0 li ++ if nl : bool then [[]] else [])) = Ok (None, p', s') /\ wf s' /\ live s' l /\
    rep (hp s') (Some l) (VArray (rval_i E [] li)) /\ (forall x, live s1 x -> x <> l -> hp s' x = hp s1 x /\ live s' x) /\
    (forall x, reach (hp s') l x -> x = l \/ ~ live s1 x) /\ apart (hp s') l (VArray (rval_i E [] li)).
Proof.
  intros E G pick cf m p s s1 l li nl [N1 N2] CF W P CL L L5 NE GI LE. destruct (pooled_empty p P) as (_ & _ & ST & US).
  destruct (ref_load_own E G pick cf CF N1 N2 m p s s1 l (DRList li) nl W CL L L5 ST US) as (p' & s' & A & B & C & D & F & K & DD & O); auto.
  - split; auto.
  - discriminate.
  - exists p', s'. split; [exact A|]. split; [exact B|]. split; [exact C|]. split; [exact D|]. split; [exact F|]. split; [exact K|exact (own_apart _ _ _ _ O)].
Qed.
Print Assumptions C85_load_list.

(** A concrete document: an anchor declared twice, aliases deeper and in list items, an unknown alias. *)
Definition ref1 : rents :=
  RCons (bs "name") (RS (SAnchor (bs "n") (bs "demo")))
  (RCons (bs "server") (RM 1 (RCons (bs "host") (RS (SAlias (bs "n"))) (RCons (bs "on") (RS (SAnchor (bs "b") (bs "true"))) RNil)))
  (RCons (bs "port") (RS (SAnchor (bs "n") (bs "7")))
  (RCons (bs "users") (RL 1 (LMap (bs "id") (SAlias (bs "n")) (RCons (bs "on") (RS (SAlias (bs "b"))) RNil) (LVal (SAlias (bs "none")) LNil)))
  (RCons (bs "on") (RS (SAlias (bs "b"))) RNil)))).
Lemma ref1_good : rgood_e y0 (key_match y0) [] ref1 /\ distinct (key_match y0) (keys_r ref1).
Proof.
  split; [|repeat constructor; vm_compute; reflexivity].
  unfold ref1. cbn [rgood_e rgood_t rgood_i keys_r good_s not_bool_alias].
  repeat match goal with
  | |- _ /\ _ => split
  | |- True => exact I
  | |- plain_key _ => plains
  | |- plain_value _ => plains
  | |- name_ok _ => repeat split; try discriminate; cbv; intuition discriminate
  | |- distinct _ _ => repeat constructor; vm_compute; reflexivity
  | |- ~ In _ _ => cbv; intuition discriminate
  | |- _ <> _ => vm_compute; discriminate
  end.
Qed.
Example C85_case : rlines_e 0 ref1 = map bs ["name: &n demo"; "server:"; "  host: *n"; "  on: &b true"; "port: &n 7"; "users:"; "  - id: *n"; "    on: *b"; "  - *none"; "on: *b"]%string /\
  refs_no_number y0 /\ rgood_e y0 (key_match y0) [] ref1 /\ distinct (key_match y0) (keys_r ref1) /\
  rval_e y0 [] ref1 = [(bs "name", VString (bs "demo")); (bs "server", VObject true [(bs "host", VString (bs "demo")); (bs "on", VTrue)]);
    (bs "port", VDouble 7); (bs "users", VArray [VObject true [(bs "id", VDouble 7); (bs "on", VTrue)]; VString (bs "*none")]); (bs "on", VTrue)].
Proof. split; [vm_compute; reflexivity|]. split; [split; reflexivity|]. split; [apply ref1_good|]. split; [apply ref1_good|vm_compute; reflexivity]. Qed.

(** Full statement: C85 without the exception for booleans.  It is false: an alias of a boolean that is the first
    entry of a nested mapping is the very cell of the anchor, so that setting the one sets the other. *)
Theorem C85_bool_refuted : exists r p' s' y, NewValueFromYaml y0 gr nopool 9 9 fresh_parser st0 (lines ["a: &x true"; "b:"; "  c: *x"]%string) true = Ok (None, Some r, p', s') /\
  walk (hp s') r [0%nat] = Some y /\ walk (hp s') r [1%nat; 0%nat] = Some y /\
  rep (hp (SetBool s' y false)) (Some r) (VObject true [(bs "a", VFalse); (bs "b", VObject true [(bs "c", VFalse)])]).
Proof.
  destruct (ok_ex (fun r => (fst (fst (fst r)), snd (fst (fst r)), walk (hp (snd r)) 5 [0%nat], walk (hp (snd r)) 5 [1%nat; 0%nat], view 5 (hp (SetBool (snd r) 6 false)) (Some 5%nat)))
    (NewValueFromYaml y0 gr nopool 9 9 fresh_parser st0 (lines ["a: &x true"; "b:"; "  c: *x"]%string) true)
    (None, Some 5%nat, Some 6%nat, Some 6%nat, Some (VObject true [(bs "a", VFalse); (bs "b", VObject true [(bs "c", VFalse)])])))
    as ([[[e r] p] s] & Q1 & Q2); [vm_compute; reflexivity|].
  cbn [fst snd] in Q2. apply pair_equal_spec in Q2 as [Q2 V]. apply pair_equal_spec in Q2 as [Q2 W2]. apply pair_equal_spec in Q2 as [Q2 W1].
  apply pair_equal_spec in Q2 as [-> ->]. exists 5%nat, p, s, 6%nat. split; [exact Q1|]. split; [exact W1|]. split; [exact W2|]. exact (view_rep _ _ _ _ V).
Qed.
Print Assumptions C85_bool_refuted.
(** The same alias as a later entry has a cell of its own. *)
Theorem C85_bool_control : exists r p' s' y, NewValueFromYaml y0 gr nopool 9 9 fresh_parser st0 (lines ["a: &x true"; "b:"; "  o: 1"; "  c: *x"]%string) true = Ok (None, Some r, p', s') /\
  walk (hp s') r [0%nat] = Some y /\
  rep (hp (SetBool s' y false)) (Some r) (VObject true [(bs "a", VFalse); (bs "b", VObject true [(bs "o", VDouble 1); (bs "c", VTrue)])]).
Proof.
  destruct (ok_ex (fun r => (fst (fst (fst r)), snd (fst (fst r)), walk (hp (snd r)) 5 [0%nat], view 5 (hp (SetBool (snd r) 6 false)) (Some 5%nat)))
    (NewValueFromYaml y0 gr nopool 9 9 fresh_parser st0 (lines ["a: &x true"; "b:"; "  o: 1"; "  c: *x"]%string) true)
    (None, Some 5%nat, Some 6%nat, Some (VObject true [(bs "a", VFalse); (bs "b", VObject true [(bs "o", VDouble 1); (bs "c", VTrue)])])))
    as ([[[e r] p] s] & Q1 & Q2); [vm_compute; reflexivity|].
  cbn [fst snd] in Q2. apply pair_equal_spec in Q2 as [Q2 V]. apply pair_equal_spec in Q2 as [Q2 W1].
  apply pair_equal_spec in Q2 as [-> ->]. exists 5%nat, p, s, 6%nat. split; [exact Q1|]. split; [exact W1|]. exact (view_rep _ _ _ _ V).
Qed.
Print Assumptions C85_bool_control.
(** Anchors on mappings are known only on the first entry of their block: on a later one, the merge that names it
    is not done and its line is kept as an entry of its own. *)
Theorem C85_map_anchor_refuted : exists r p' s',
  NewValueFromYaml y0 gr nopool 9 9 fresh_parser st0 (lines ["a: 1"; "base: &B"; "  x: 1"; "derived:"; "  <<: *B"]%string) true = Ok (None, Some r, p', s') /\
  rep (hp s') (Some r) (VObject true [(bs "a", VDouble 1); (bs "base", VObject true [(bs "x", VDouble 1)]); (bs "derived", VObject true [(bs "<<", VString (bs "*B"))])]).
Proof. apply yaml_view. vm_compute. reflexivity. Qed.
Print Assumptions C85_map_anchor_refuted.
(** On the first entry it is. *)
Theorem C85_map_anchor_control : exists r p' s',
  NewValueFromYaml y0 gr nopool 9 9 fresh_parser st0 (lines ["base: &B"; "  x: 1"; "derived:"; "  <<: *B"]%string) true = Ok (None, Some r, p', s') /\
  rep (hp s') (Some r) (VObject true [(bs "base", VObject true [(bs "x", VDouble 1)]); (bs "derived", VObject true [(bs "x", VDouble 1)])]).
Proof. apply yaml_view. vm_compute. reflexivity. Qed.
Print Assumptions C85_map_anchor_control.
(** The name of an alias ends at the first blank: what follows is dropped without an error. *)
Theorem C85_tail_refuted : exists r p' s',
  NewValueFromYaml y0 gr nopool 9 9 fresh_parser st0 (lines ["a: &x 1"; "b: *x and more"]%string) true = Ok (None, Some r, p', s') /\
  rep (hp s') (Some r) (VObject true [(bs "a", VDouble 1); (bs "b", VDouble 1)]).
Proof. apply yaml_view. vm_compute. reflexivity. Qed.
Print Assumptions C85_tail_refuted.

(** ** C86 *)
(** What a loader builds is a tree: no cell of it is met on two paths, and whatever is done to the cell on one
    path, the whole reads as before except there.  For YAML documents without references: *)
Theorem C86_yaml : forall E G pick cf m p s i d nl use, wf s -> pooled p -> good_d E d -> (List.length (lines_d i d) < m)%nat ->
  exists r p' s', NewValueFromYaml E G pick cf m p s (doc (lines_d i d ++ if nl : bool then [[]] else [])) use = Ok (None, Some r, p', s') /\
    apart (hp s') r (val_d E d).
Proof.
  intros E G pick cf m p s i d nl use W P GD LE. destruct (pooled_empty p P) as (_ & _ & ST & _).
  destruct (tree_new_own E G pick cf m p s i d nl use W ST GD LE) as (r & p' & s' & A & _ & _ & _ & _ & _ & DD & O).
  exists r, p', s'. split; [exact A|exact (own_apart _ _ _ _ O)].
Qed.
Print Assumptions C86_yaml.
Theorem C86_load_yaml : forall E G pick cf m p s s1 l d nl, wf s -> pooled p -> Clear s l = Ok s1 -> live s1 l -> (5 <= l)%nat ->
  good_d E d -> (forall k t r li, d = DMap (ECons k t r) li -> hd 0 k <> 9) -> (List.length (lines_d 0 d) < m)%nat ->
  exists p' s', LoadFromYaml E G pick cf m p s l (doc (lines_d 0 d ++ if nl : bool then [[]] else [])) = Ok (None, p', s') /\
    apart (hp s') l (val_d E d).
Proof.
  intros E G pick cf m p s s1 l d nl W P CL L L5 GD H9 LE. destruct (pooled_empty p P) as (_ & _ & ST & _).
  destruct (tree_load_own E G pick cf m p s s1 l d nl W CL L L5 ST GD H9 LE) as (p' & s' & A & _ & _ & _ & _ & _ & DD & O).
  exists p', s'. split; [exact A|exact (own_apart _ _ _ _ O)].
Qed.
Print Assumptions C86_load_yaml.
(** For every BSON document that decodes: *)
Theorem C86_bson : forall E G s uc b v, wf s -> bytes_ok b -> NewValueFromBson E b = Ok v ->
  exists s' r, h_NewValueFromBson E G s uc b = Ok (s', inr (Some r)) /\ apart (hp s') r v.
Proof.
  intros E G s uc b v W B Q. pose proof (new_bson E G s uc b W B) as H. cbv zeta in H. rewrite Q in H. destruct H as (s' & r & H & _ & D & O).
  exists s', r. split; [exact H|exact (own_apart _ _ _ _ O)].
Qed.
Print Assumptions C86_bson.
(** [LoadFromBson] besides changes no cell outside the receiver, and takes none that was in use. *)
Theorem C86_load_bson : forall E G s s1 l b v, wf s -> Clear s l = Ok s1 -> live s1 l -> (5 <= l)%nat -> bytes_ok b ->
  c_dt (hp s l) = TObject -> NewValueFromBson E b = Ok v ->
  exists s', h_LoadFromBson E G s l b = Ok (s', None) /\ apart (hp s') l v /\
    (forall x, live s1 x -> x <> l -> hp s' x = hp s1 x) /\ (forall x, live s1 x -> live s' x) /\
    (forall x, reach (hp s') l x -> x = l \/ ~ live s1 x).
Proof.
  intros E G s s1 l b v W CL L L5 B D Q. assert (NB : b <> []) by (intros ->; discriminate).
  pose proof (load_obj E G s s1 l b W CL L L5 B NB D) as H. rewrite Q in H. destruct H as (s' & A & _ & _ & (A1 & A2 & A3) & DD & O).
  exists s'. split; [exact A|]. split; [exact (own_apart _ _ _ _ O)|]. auto.
Qed.
Print Assumptions C86_load_bson.
(** The two tree-wise cases, and a change at a path. *)
Example C86_case : (exists r p' s', NewValueFromYaml y0 gr nopool 9 20 fresh_parser st0 (doc (lines_e 0 tree1)) true = Ok (None, Some r, p', s') /\
    walk (hp s') r [1%nat; 1%nat; 0%nat] = Some 10%nat) /\
  put [1%nat; 1%nat; 0%nat] VFalse (VObject true (val_e (loaded y0) tree1)) =
    VObject true [(bs "name", VString (bs "demo"));
    (bs "server", VObject true [(bs "host", VString (bs "a b")); (bs "tls", VObject true [(bs "on", VFalse)]); (bs "none", VObject false [])]);
    (bs "users", VArray [VObject true [(bs "id", VDouble 7); (bs "tags", VArray [VString (bs "x"); VString (bs "y")])]; VString (bs "plain")]);
    (bs "last", VFalse)].
Proof.
  split; [|vm_compute; reflexivity].
  destruct (ok_ex (fun r => (fst (fst (fst r)), snd (fst (fst r)), walk (hp (snd r)) 5 [1%nat; 1%nat; 0%nat]))
    (NewValueFromYaml y0 gr nopool 9 20 fresh_parser st0 (doc (lines_e 0 tree1)) true) (None, Some 5%nat, Some 10%nat))
    as ([[[e r] p] s] & Q1 & Q2); [vm_compute; reflexivity|].
  cbn [fst snd] in Q2. apply pair_equal_spec in Q2 as [Q2 W1]. apply pair_equal_spec in Q2 as [-> ->]. eauto.
Qed.
