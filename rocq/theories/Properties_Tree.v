(** Property C87: what the constructors and loaders other than those of C86 build is a tree.  Each theorem is
    followed by what it assumes and by a concrete case. *)
From Coq Require Import String.
From Verif Require Import Base Values Tactics Env0 JsonModel JsonSpec MsgPackModel HeapModel MsgLoadModel JsonLoadModel ReflectModel HeapSpec
  MsgLoadSpec JsonLoadSpec ReflectSpec HeapBase HeapConf HeapGet HeapCalls HeapForce HeapTree HeapClone HeapMerge HeapCopy HeapMap HeapBuild MsgLoadThms MsgLoadArr JsonLoadThms
  JsonLoadKept ReflectThms ReflectPerm ReflectRoot OwnWalk HeapView Properties_Map Properties_Heap Properties_Merge Properties_MsgLoad
  Properties_JsonLoad Properties_NewFrom.

(** ** C87 *)
(** The value [p] is made of the tree [v] up to the upper halves of float32 values ([low]); no cell of it but
    the shared constants (true, false, null, NaN, Inf: the cells below 5) is met on two paths, and whatever is
    done to another cell, the whole reads as before except on the path to it. *)
Definition tree_ptr (h : nat -> cell) (p : ptr) (v : value) : Prop :=
  exists w, low w = v /\ rep h p w /\ forall r, p = Some r -> tree_apart h r w.
Lemma shows_tree h p v : MsgLoadSpec.shows h p v -> (forall r, p = Some r -> treelike h r) -> tree_ptr h p v.
Proof.
  intros (w & R & L) T. exists w. split; [exact L|]. split; [exact R|]. intros r ->. apply treelike_apart; auto.
Qed.
Lemma decoded_tree s c v p s' : decoded s c v p s' -> tree_ptr (hp s') p v.
Proof.
  destruct p as [r|]; cbn [decoded].
  - intros (w & L & K). apply shows_tree; [exists w; split; [apply (k_rep _ _ _ _ _ K)|exact L]|].
    intros r0 Q. injection Q as <-. apply (k_tree _ _ _ _ _ K).
  - intros [-> _]. apply shows_tree; [exists VNilP; split; [constructor|reflexivity]|]. intros r Q. discriminate.
Qed.

Theorem C87_json : forall E G s uc b v, num_env E -> wf s -> NewValueFromJson E b = Ok v ->
  exists s' p, h_NewValueFromJson E G s uc b = Ok (s', inr p) /\ tree_ptr (hp s') p v.
Proof.
  intros E G s uc b v NE W Q. pose proof (new_json E G NE s uc b W) as H. rewrite Q in H. destruct H as (s' & p & H & D).
  exists s', p. split; [exact H|eapply decoded_tree; exact D].
Qed.
Print Assumptions C87_json.
Theorem C87_msgpack : forall E G s uc b v, wf s -> bytes_ok b -> NewValueFromMsgPack E b = Ok v ->
  exists s' p, h_NewValueFromMsgPack E G s uc b = Ok (s', inr p) /\ tree_ptr (hp s') p v.
Proof.
  intros E G s uc b v W BB Q. pose proof (new_msg E G s uc b W BB) as H. rewrite Q in H. destruct H as (s' & p & H & D).
  exists s', p. split; [exact H|eapply decoded_tree; exact D].
Qed.
Print Assumptions C87_msgpack.
(** [Clone] of a value that may meet cells twice. *)
Theorem C87_clone : forall G s l v uc, wf s -> cloneable_graph s l -> rep (hp s) (Some l) v -> clonable v ->
  exists n0, forall fuel, (n0 <= fuel)%nat -> exists r s', Clone G fuel s (Some l) uc = Ok (r, s') /\ tree_apart (hp s') r (strip v).
Proof.
  intros G s l v uc W CG R CB. destruct (clone_content G s l v uc W CG R CB) as [n0 H]. exists n0. intros fuel Fu.
  destruct (H fuel Fu) as (r & s' & A & B & _ & _ & T). exists r, s'. split; [exact A|apply treelike_apart; auto].
Qed.
Print Assumptions C87_clone.
Theorem C87_copy_from : forall G s l m c v, wf s -> ok_cache none_set s c -> live s l -> (5 <= l)%nat -> from_graph s m -> ~ reach (hp s) m l ->
  rep (hp s) (Some m) v -> clonable v ->
  exists n0, forall fuel, (n0 <= fuel)%nat -> exists s', CopyFrom G fuel s l m c = Ok s' /\ tree_apart (hp s') l (strip v).
Proof.
  intros G s l m c v W OC L L5 FG AP R CB. destruct (CopyFrom_content G s l m c v W OC L L5 FG AP R CB) as [n0 H].
  exists n0. intros fuel Fu. destruct (H fuel Fu) as (s' & A & _ & B & _ & _ & _ & T). exists s'. split; [exact A|apply treelike_apart; auto].
Qed.
Print Assumptions C87_copy_from.
(** [AddFrom] keeps a tree a tree. *)
Theorem C87_add_from : forall G s l m c u kl um km, wf s -> ok_cache none_set s c -> plive s (Some l) -> from_graph s m -> ~ reach (hp s) m l ->
  rep (hp s) (Some l) (VObject u kl) -> treelike (hp s) l -> rep (hp s) (Some m) (VObject um km) -> clonable (VObject um km) ->
  exists n0, forall fuel, (n0 <= fuel)%nat -> exists s', AddFrom G fuel s l m c = Ok s' /\
    tree_apart (hp s') l (VObject um (kl ++ map (fun kv => (fst kv, strip (snd kv))) km)).
Proof.
  intros G s l m c u kl um km W OC PL FG AP Rl T Rm CB. destruct (AddFrom_object G s l m c u kl um km W OC PL FG AP Rl Rm CB) as [n0 H].
  exists n0. intros fuel Fu. destruct (H fuel Fu) as (s' & A & _ & B & _ & _ & _ & T'). exists s'. split; [exact A|apply treelike_apart; auto].
Qed.
Print Assumptions C87_add_from.
Theorem C87_new_from : forall E G s cached g, wf s -> root_kept E g ->
  exists l s', NewValueFrom E G s cached g = Ok (l, s') /\ tree_ptr (hp s') (Some l) (goal E g).
Proof.
  intros E G s cached g W K. destruct (C84_content E G s cached g W K) as (l & s' & A & _ & B & _ & _ & T).
  exists l, s'. split; [exact A|]. apply shows_tree; [exact B|]. intros r Q. injection Q as <-. exact T.
Qed.
Print Assumptions C87_new_from.
Theorem C87_set_value : forall E G s l g, wf s -> live s l -> (5 <= l)%nat -> root_kept E g ->
  (forall x, g = GSc false x \/ g = GPtr (GSc false x) -> root_fit s l x) ->
  exists s', SetValue E G s l g = Ok s' /\ tree_ptr (hp s') (Some l) (goal E g).
Proof.
  intros E G s l g W L L5 K RF. destruct (set_root E G s l g W L L5 K RF) as (s' & A & _ & B & _ & _ & _ & T).
  exists s'. split; [exact A|]. apply shows_tree; [exact B|]. intros r Q. injection Q as <-. exact T.
Qed.
Print Assumptions C87_set_value.
(** [LoadFromJson] and [LoadFromMsgPack] into any value, whatever it held and however that was shared.  The
    second also changes nothing else, and what is under the receiver afterwards was not in use. *)
Theorem C87_load_json : forall E G s s1 l b v v', num_env E -> wf s -> Clear s l = Ok s1 -> live s1 l -> (5 <= l)%nat ->
  rep (hp s) (Some l) v -> LoadFromJson E v b = (v', Ok tt) ->
  exists s', h_LoadFromJson E G s l b = Ok (s', None) /\ tree_ptr (hp s') (Some l) (low v').
Proof.
  intros E G s s1 l b v v' NE W CL L L5 R Q. destruct (C67_content E G s s1 l b v v' NE W CL L L5 R Q) as (s' & A & _ & B).
  exists s'. split; [exact A|]. apply shows_tree; [exact B|]. intros r X. injection X as <-.
  apply (load_new E G NE s s1 l b s' W CL L L5 A).
Qed.
Print Assumptions C87_load_json.
Theorem C87_load_msgpack : forall E G s s1 l b v, wf s -> bytes_ok b -> Clear s l = Ok s1 -> live s1 l -> (5 <= l)%nat ->
  NewValueFromMsgPack E b = Ok v ->
  exists s', LoadFromMsgPack E G s l b = Ok (s', None) /\ treelike (hp s') l /\
    (load_exact E (hp s l) v -> tree_ptr (hp s') (Some l) v) /\
    (forall x, live s1 x -> x <> l -> hp s' x = hp s1 x) /\ (forall x, live s1 x -> live s' x) /\
    (forall x, reach (hp s') l x -> x = l \/ (x < 5)%nat \/ ((5 <= x)%nat /\ ~ live s1 x /\ live s' x)).
Proof.
  intros E G s s1 l b v W BB CL L L5 Q. destruct (load_any E G s s1 l b v W BB CL L L5 Q) as (s' & A & _ & B & (C1 & C2 & C3 & T)).
  exists s'. split; [exact A|]. split; [exact T|]. split; [|auto].
  intros LA. apply shows_tree; [apply B; exact LA|]. intros r X. injection X as <-. exact T.
Qed.
Print Assumptions C87_load_msgpack.

(** What it means for a call: setting the string or the integer found on a path. *)
Lemma set_cells s y : (5 <= y)%nat -> forall s', (exists nc, s' = set_cell s y nc \/ exists c0, s' = set_cell (set_cell s y c0) y nc) ->
  forall z, z <> y -> hp s' z = hp s z.
Proof. intros L5 s' (nc & [->|[c0 ->]]) z N; cbn [set_cell hp]; rewrite ?upd_other by auto; reflexivity. Qed.
Theorem C87_set_string : forall s x v path y b, tree_apart (hp s) x v -> walk (hp s) x path = Some y -> (5 <= y)%nat ->
  rep (hp (SetString s y b)) (Some x) (put path (VString b) v).
Proof.
  intros s x v path y b [_ H] WK L5. apply (H path y _ _ WK L5).
  - intros z _ N. apply (set_cells s y L5); auto. unfold SetString, ensure, Reset. rewrite not_shared by auto.
    destruct (vt_eqb (c_dt (hp s y)) TString); eauto.
  - assert (Q : hp (SetString s y b) y = w_str (hp (ensure s y TString) y) b) by (unfold SetString; cbn [set_cell hp]; apply upd_same).
    replace (VString b) with (VString (c_str (hp (SetString s y b) y))) by (rewrite Q; reflexivity). apply rep_str. rewrite Q. cbn [w_str c_dt].
    unfold ensure, Reset. rewrite not_shared by auto. destruct (vt_eqb (c_dt (hp s y)) TString) eqn:D; [apply HeapBase.vt_eqb_eq in D; exact D|].
    cbn [set_cell hp]. rewrite upd_same. reflexivity.
Qed.
Print Assumptions C87_set_string.
(** So a string set anywhere in a document read from JSON appears there and nowhere else. *)
Theorem C87_edit : forall E G s uc b v, num_env E -> wf s -> NewValueFromJson E b = Ok v ->
  exists s' p, h_NewValueFromJson E G s uc b = Ok (s', inr p) /\
    forall r path y t, p = Some r -> walk (hp s') r path = Some y -> (5 <= y)%nat ->
      MsgLoadSpec.shows (hp (SetString s' y t)) p (low (put path (VString t) v)).
Proof.
  intros E G s uc b v NE W Q. destruct (C87_json E G s uc b v NE W Q) as (s' & p & A & (w & L & R & T)).
  exists s', p. split; [exact A|]. intros r path y t -> WK L5. exists (put path (VString t) w).
  split; [apply (C87_set_string s' r w path y t (T r eq_refl) WK L5)|]. subst v. clear. revert w.
  assert (AT : forall A (i : nat) (f g h : A -> A) l, (forall x, h (f x) = h (g (h x))) -> (forall x, h (h x) = h x) -> map h (at_nth i f l) = map h (at_nth i g (map h l))).
  { intros A i f g h l H1 H2. revert i. induction l as [|a l IH]; intros i; [destruct i; reflexivity|].
    destruct i as [|i]; cbn [at_nth map]; [rewrite H1; f_equal; rewrite map_map; apply map_ext; auto|rewrite IH, H2; reflexivity]. }
  assert (LL : forall v, low (low v) = low v).
  { intros v0. induction v0 using value_ind'; cbn [low]; try reflexivity.
    - f_equal. rewrite map_map. apply map_ext_in. intros kv I. cbn [fst snd]. rewrite Forall_forall in H. rewrite (H kv I). reflexivity.
    - f_equal. rewrite map_map. apply map_ext_in. intros x I. rewrite Forall_forall in H. apply (H x I).
    - f_equal. apply Z.mod_mod. lia. }
  induction path as [|i path IH]; intros w; cbn [put]; [reflexivity|].
  destruct w; cbn [low]; try reflexivity; try (f_equal; symmetry; apply LL).
  - f_equal. apply AT; [intros kv; cbn [fst snd]; rewrite IH; reflexivity|intros kv; cbn [fst snd]; rewrite LL; reflexivity].
  - f_equal. apply AT; auto.
  - f_equal. symmetry. apply Z.mod_mod. lia.
Qed.
Print Assumptions C87_edit.
(** ** Cases *)
(** Of [{"a":["x","x"],"b":true,"c":true}] the second "x" is set. *)
Definition twin_json : bytes := bs "{""a"":[""x"",""x""],""b"":true,""c"":true}".
Definition twin_tree : value := VObject false [(bs "a", VArray [VRawString (bs "x"); VRawString (bs "x")]); (bs "b", VTrue); (bs "c", VTrue)].
Example C87_case : num_env e64 /\ wf recycled_st /\ NewValueFromJson e64 twin_json = Ok twin_tree /\
  exists s' r y, h_NewValueFromJson e64 g0 recycled_st (Some (Some 0%nat)) twin_json = Ok (s', inr (Some r)) /\
    walk (hp s') r [0%nat; 1%nat] = Some y /\ (5 <= y)%nat /\
    view 4 (hp (SetString s' y (bs "z"))) (Some r) =
      Some (VObject false [(bs "a", VArray [VRawString (bs "x"); VString (bs "z")]); (bs "b", VTrue); (bs "c", VTrue)]).
Proof.
  split; [exact e64_num|]. split; [exact recycled_wf|]. split; [vm_compute; reflexivity|].
  destruct (ok_ex (fun r => match snd r with inr (Some l) => Some (l, walk (hp (fst r)) l [0%nat; 1%nat]) | _ => None end)
    (h_NewValueFromJson e64 g0 recycled_st (Some (Some 0%nat)) twin_json) (Some (5%nat, Some 8%nat))) as ([s' x] & Q1 & Q2); [vm_compute; reflexivity|].
  cbn [fst snd] in Q2. destruct x as [e|[l|]]; try discriminate Q2. injection Q2 as -> Q2. exists s', 5%nat, 8%nat.
  split; [exact Q1|]. split; [exact Q2|]. split; [lia|].
  assert (X : ok_map (fun r => view 4 (hp (SetString (fst r) 8 (bs "z"))) (Some 5%nat)) (h_NewValueFromJson e64 g0 recycled_st (Some (Some 0%nat)) twin_json)
     = Some (Some (VObject false [(bs "a", VArray [VRawString (bs "x"); VString (bs "z")]); (bs "b", VTrue); (bs "c", VTrue)]))) by (vm_compute; reflexivity).
  rewrite Q1 in X. cbn [ok_map fst] in X. injection X as X. exact X.
Qed.
(** Full statement: C87 for every cell.  It is false for the shared constants: a boolean read from JSON is met
    on both paths, and setting it to a string does nothing. *)
Theorem C87_constant_refuted : exists s' r y, h_NewValueFromJson e64 g0 recycled_st (Some (Some 0%nat)) twin_json = Ok (s', inr (Some r)) /\
  walk (hp s') r [1%nat] = Some y /\ walk (hp s') r [2%nat] = Some y /\ rep (hp (SetString s' y (bs "z"))) (Some r) twin_tree.
Proof.
  destruct (ok_ex (fun r => match snd r with inr (Some l) => Some (l, walk (hp (fst r)) l [1%nat], walk (hp (fst r)) l [2%nat], view 4 (hp (SetString (fst r) 0 (bs "z"))) (Some l)) | _ => None end)
    (h_NewValueFromJson e64 g0 recycled_st (Some (Some 0%nat)) twin_json) (Some (5%nat, Some 0%nat, Some 0%nat, Some twin_tree))) as ([s' x] & Q1 & Q2); [vm_compute; reflexivity|].
  cbn [fst snd] in Q2. destruct x as [e|[l|]]; try discriminate Q2. apply (f_equal (fun o => match o with Some a => a | None => (l, None, None, None) end)) in Q2.
  cbv beta iota in Q2. apply pair_equal_spec in Q2 as [Q2 Q4]. apply pair_equal_spec in Q2 as [Q2 Q3]. apply pair_equal_spec in Q2 as [-> Q2]. exists s', 5%nat, 0%nat.
  split; [exact Q1|]. split; [exact Q2|]. split; [exact Q3|]. exact (view_rep 4 _ _ _ Q4).
Qed.
Print Assumptions C87_constant_refuted.
(** A value put in one array twice is no tree, and setting it once sets it twice; its clone is one. *)
Definition twice_ops : list op := [ONewArray; ONew TString; OSetString 6 (bs "x"); OSetIndexValue 5 0 (Some 6%nat); OSetIndexValue 5 1 (Some 6%nat)].
Definition twice_st : st := st_of e1 g0 twice_ops.
Lemma twice_wf : wf twice_st.
Proof. apply st_of_wf; vm_compute; reflexivity. Qed.
Example C87_twice : wf twice_st /\ cloneable_graph twice_st 5 /\ rep (hp twice_st) (Some 5%nat) (VArray [VString (bs "x"); VString (bs "x")]) /\
  clonable (VArray [VString (bs "x"); VString (bs "x")]) /\ ~ treelike (hp twice_st) 5 /\
  rep (hp (SetString twice_st 6 (bs "z"))) (Some 5%nat) (VArray [VString (bs "z"); VString (bs "z")]) /\
  exists r s' y, Clone g0 9 twice_st (Some 5%nat) None = Ok (r, s') /\ walk (hp s') r [1%nat] = Some y /\ (5 <= y)%nat /\
    rep (hp (SetString s' y (bs "z"))) (Some r) (VArray [VString (bs "x"); VString (bs "z")]).
Proof.
  assert (R : rep (hp twice_st) (Some 5%nat) (VArray [VString (bs "x"); VString (bs "x")])) by (apply (view_rep 3); vm_compute; reflexivity).
  assert (CG : cloneable_graph twice_st 5).
  { assert (RC : forall x, reach (hp twice_st) 5 x -> x = 5%nat \/ x = 6%nat).
    { intros x X. induction X as [|x y X IH S]; [auto|]. destruct IH as [->| ->]; vm_compute in S; intuition congruence. }
    intros x X. destruct (RC x X) as [->| ->]; (split; [apply live_of; vm_compute; reflexivity|vm_compute; intuition (congruence || lia)]). }
  split; [exact twice_wf|]. split; [exact CG|]. split; [exact R|]. split; [cbn; auto|]. split; [|split].
  - intros T. assert (X : [0%nat] = [1%nat]) by (apply (T _ _ 6%nat); [lia|vm_compute; reflexivity|vm_compute; reflexivity]). discriminate.
  - apply (view_rep 3). vm_compute. reflexivity.
  - destruct (ok_ex (fun r => (fst r, walk (hp (snd r)) (fst r) [1%nat], view 3 (hp (SetString (snd r) 23 (bs "z"))) (Some (fst r))))
      (Clone g0 9 twice_st (Some 5%nat) None) (7%nat, Some 23%nat, Some (VArray [VString (bs "x"); VString (bs "z")]))) as ([r s'] & Q1 & Q2); [vm_compute; reflexivity|].
    cbn [fst snd] in Q2. apply pair_equal_spec in Q2 as [Q2 Q3]. apply pair_equal_spec in Q2 as [-> Q2].
    exists 7%nat, s', 23%nat. split; [exact Q1|]. split; [exact Q2|]. split; [lia|]. exact (view_rep 3 _ _ _ Q3).
Qed.
