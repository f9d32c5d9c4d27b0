(** Documents that are nested mappings or lists. *)
From Verif Require Import Base Values Tactics HeapModel HeapSpec HeapBase HeapConf HeapGet ApiSpec HeapMap
  HeapCalls HeapObj HeapForce HeapClone HeapTyped BsonModel BsonLoadThms YamlModel YamlSpec YamlThms YamlFlat YamlTreeSpec YamlTree.

Definition line_ok (l : bytes) : Prop := (2 <= List.length l)%nat /\ no_newline l.
Lemma blanks_nn n b : ~ In 10 b -> no_newline (blanks n ++ b).
Proof. intros H X. apply in_app_or in X as [X|X]; [|auto]. apply repeat_spec in X. discriminate. Qed.
Lemma lines_ok_all same :
  (forall t, good_t line_value same t -> forall i k, plain_key k -> Forall line_ok (lines_t i k t)) /\
  (forall es, good_e line_value same es -> forall i, Forall line_ok (lines_e i es)) /\
  (forall l, good_i line_value same l -> forall i, Forall line_ok (lines_i i l)).
Proof.
  assert (K10 : forall k b, plain_key k -> ~ In 10 b -> ~ In 10 (k ++ 58 :: b)).
  { intros k b (_ & _ & _ & _ & K & _) B X. apply in_app_or in X as [X|[X|X]]; auto; discriminate. }
  assert (FL : forall i k v, plain_key k -> line_value v -> line_ok (flat_line i (k, v))).
  { intros i k v PK PV. split; [apply (flat_len (fun n => n)); auto|]. apply blanks_nn. apply K10; auto.
    destruct PV as (_ & _ & _ & V & _). intros [X|X]; [discriminate|auto]. }
  assert (KL : forall i k, plain_key k -> line_ok (key_line i k)).
  { intros i k PK. split; [apply (key_len (fun n => n)); auto|]. apply blanks_nn. apply K10; auto. }
  assert (IL : forall i v, ~ In 10 v -> line_ok (item_line i v)).
  { intros i v PV. split; [apply (item_len (fun n => n))|]. refine (blanks_nn i ([45; 32] ++ v) _). intros [X|[X|X]]; auto; discriminate. }
  apply ytree_mut.
  - intros v PV i k PK. constructor; [apply FL; auto|constructor].
  - intros d es IH [GE _] i k PK. constructor; [apply KL; auto|apply IH; auto].
  - intros d l IH [_ GI] i k PK. constructor; [apply KL; auto|apply IH; auto].
  - intros _ i. constructor.
  - intros k t IHt r IHr (PK & GT & GR) i. apply Forall_app. split; [apply IHt; auto|apply IHr; auto].
  - intros _ i. constructor.
  - intros v r IHr (PV & _ & GR) i. constructor; [|apply IHr; auto]. apply IL. apply PV.
  - intros k v es IHe r IHr (PK & PV & GE & _ & GR) i. constructor.
    + apply IL. apply K10; auto. destruct PV as (_ & _ & _ & V & _). intros [X|X]; [discriminate|auto].
    + apply Forall_app. split; [apply IHe; auto|apply IHr; auto].
Qed.

Section Docs.
Variable E : env.
Variable G : nat -> nat.
Variable pick : st -> option nat.
Variable cf : nat.
Notation N := none_set.
Notation same := (key_match E).
Notation pline := (parseLine E G pick cf).
Notation run := (run E G pick cf).

Lemma doc_run m p s ls nl : ls <> [] -> Forall line_ok ls -> (List.length ls < m)%nat ->
  yparse E G pick cf m p s (doc (ls ++ YamlFlat.fin nl)) = run (started p) s ls.
Proof.
  intros NE F LE.
  assert (N1 : ls ++ YamlFlat.fin nl <> []) by (destruct ls; [congruence|discriminate]).
  rewrite parse_run; auto.
  - replace (List.length (last (ls ++ YamlFlat.fin nl) []) =? 1)%nat with false.
    + rewrite run_app. destruct (run (started p) s ls) as [[[[e|] p1] s1]| | |]; try reflexivity.
      cbn [bind]. destruct nl; reflexivity.
    + symmetry. apply Nat.eqb_neq. destruct nl; cbn [YamlFlat.fin] in *.
      * rewrite last_last. cbn. lia.
      * rewrite app_nil_r in *. pose proof (last_in ls [] NE) as I. rewrite Forall_forall in F. destruct (F _ I). lia.
  - intros Q. destruct ls as [|l ls]; [congruence|]. cbn [app] in Q.
    inversion F as [|? ? [K _] _]; subst.
    destruct l as [|c0 l0]; [cbn in K; lia|]. cbn [doc] in Q. destruct (ls ++ YamlFlat.fin nl); discriminate.
  - apply Forall_app. split; [eapply Forall_impl; [|exact F]; intros l [_ K]; exact K|]. destruct nl; repeat constructor. intros [].
  - rewrite app_length. destruct nl; cbn [YamlFlat.fin List.length]; lia.
Qed.

(** ** The root made by the first line *)
Definition kind_of (body : bytes) : vtype := if hd 0 body =? 45 then TArray else TObject.
Lemma root_stack p s t : stack p = [] -> last_sp p = -1 ->
  let '(p1, s1, r) := new_root G pick p s t in stack p1 = [mkNode false (-1) r] /\ last_sp p1 = -1 /\ y_root p1 = Some r.
Proof.
  intros ST LS. unfold new_root. destruct (use_cache p).
  - destruct (getCache s (pick s)) as [k' s1]. destruct (getValue G s1 (Some k') t) as [r s2].
    cbn [stack push_node set_stack set_root last_sp y_root]. rewrite ST. auto.
  - destruct (NewCacheValue G s (pick s) t) as [r s2].
    cbn [stack push_node set_stack set_root last_sp y_root]. rewrite ST. auto.
Qed.
Lemma adj_root p n : (stack p = [] \/ exists r, stack p = [mkNode false (-1) r]) -> last_sp p = -1 -> adj p (Z.of_nat n) = p.
Proof.
  intros ST LS. unfold adj. assert (L : lsp p = -1).
  { unfold lsp. destruct ST as [->|(r & ->)]; [exact LS|]. cbn [y_map]. rewrite andb_false_r. exact LS. }
  rewrite L. destruct (Z.ltb_spec (Z.of_nat n) (-1)); [lia|]. destruct (Z.eqb_spec (-1) (Z.of_nat n)); [lia|]. reflexivity.
Qed.
Lemma root_line p s n body : stack p = [] -> last_sp p = -1 -> body <> [] -> hd 0 body <> 32 -> hd 0 body <> 35 -> no_comment body ->
  (if hd 0 body =? 45 then exists b, tl body = 32 :: b else exists k v, splitKv body = (k, v, true) /\ k <> []) ->
  pline p s (blanks n ++ body) (lead (blanks n ++ body)) =
  (let '(p1, s1, _) := new_root G pick p s (kind_of body) in pline p1 s1 (blanks n ++ body) (lead (blanks n ++ body))).
Proof.
  intros ST LS NE N1 N2 NC SH. rewrite line_body by auto. rewrite adj_root by auto.
  pose proof (root_stack p s (kind_of body) ST LS) as RS.
  destruct (new_root G pick p s (kind_of body)) as [[p1 s1] r] eqn:NR. destruct RS as (ST1 & LS1 & RT1).
  rewrite line_body by auto. rewrite adj_root by eauto. unfold kind_of in NR.
  destruct (hd 0 body =? 45).
  - destruct SH as (b & SH). rewrite SH. unfold parseArray. change (negb (32 =? 32)) with false. cbn [andb]. cbv zeta.
    rewrite ST, ST1, NR. reflexivity.
  - destruct SH as (k & v & SK & NK). unfold parseObject. rewrite ST, ST1, NR. cbn [y_map y_v]. rewrite andb_false_r. cbv zeta.
    rewrite SK, LS, LS1. destruct k as [|k0 k]; [congruence|]. reflexivity.
Qed.
Lemma new_root_tree p s t k : wf s -> t = vt_of k -> k <> KNull ->
  let '(p1, s1, r) := new_root G pick p s t in
  wf s1 /\ live s1 r /\ (5 <= r)%nat /\ ~ live s r /\ own (hp s1) r (empty_of k) (fun z => z = r) /\ ok_cache N s1 (y_cache p1) /\
  (forall x, live s x -> hp s1 x = hp s x /\ live s1 x).
Proof.
  intros W -> NK. destruct (cache_of_same G s (Some (pick s)) W) as (HP & LV & _ & W1 & OC). cbn [cache_of fst snd] in *.
  assert (H : let '(r, s2) := getValue G (snd (getCache s (pick s))) (Some (fst (getCache s (pick s)))) (vt_of k) in
    wf s2 /\ live s2 r /\ (5 <= r)%nat /\ ~ live s r /\ own (hp s2) r (empty_of k) (fun z => z = r) /\
    ok_cache N s2 (Some (fst (getCache s (pick s)))) /\ (forall x, live s x -> hp s2 x = hp s x /\ live s2 x)).
  { destruct (getValue G _ _ _) as [r s2] eqn:GV.
    destruct (chg_get G _ _ _ r s2 (fun _ => False) W1 OC ltac:(intros z []) GV) as (C1 & CL & NR & FR).
    destruct (ch_new _ _ _ _ _ C1 r (or_intror eq_refl)) as (R5 & RL & _).
    split; [apply C1|]. split; [exact RL|]. split; [exact R5|]. split; [intros Q; apply NR, LV, Q|].
    split; [apply own_empty; auto|]. split; [exact (chg_cache _ _ _ _ _ C1 W1 ltac:(intros z []) OC)|].
    intros x X. rewrite FR by auto. rewrite HP. split; [auto|]. apply (ch_lives _ _ _ _ _ C1). auto. }
  unfold new_root. destruct (use_cache p).
  - destruct (getCache s (pick s)) as [k0 s1]. cbn [fst snd] in H. destruct (getValue G s1 (Some k0) (vt_of k)) as [r s2]. exact H.
  - assert (NV : NewCacheValue G s (pick s) (vt_of k) = let (k0, s1) := getCache s (pick s) in getValue G s1 (Some k0) (vt_of k)).
    { destruct k; [reflexivity|reflexivity|congruence]. }
    rewrite NV. destruct (getCache s (pick s)) as [k0 s1]. cbn [fst snd] in H. destruct (getValue G s1 (Some k0) (vt_of k)) as [r s2].
    destruct H as (A & B & C & D & F & _ & H). split; [exact A|]. split; [exact B|]. split; [exact C|]. split; [exact D|]. split; [exact F|].
    split; [|exact H]. apply (own_ok N N); auto. split; [apply B|intros []].
Qed.

(** A mapping, with list items at the same indentation behind it, or a list. *)
Inductive ydoc := DMap (es : yents) (l : yitems) | DList (l : yitems).
Definition lines_d (i : nat) (d : ydoc) : list bytes := match d with DMap es l => lines_e i es ++ lines_i i l | DList l => lines_i i l end.
Definition val_d (d : ydoc) : value :=
  match d with DMap es INil => VObject true (val_e (loaded E) es) | DMap _ l => VArray (val_i (loaded E) l) | DList l => VArray (val_i (loaded E) l) end.
Definition good_d (d : ydoc) : Prop :=
  match d with
  | DMap es l => es <> ENil /\ good_e line_value same es /\ distinct same (keys_e es) /\ good_i line_value same l
  | DList l => l <> INil /\ good_i line_value same l
  end.
Definition kind_d (d : ydoc) : bkind := match d with DMap _ _ => KObj | DList _ => KArr end.

(** Lines into an empty root. *)
Lemma doc_steps p s c r i d : good_d d -> stack p = [mkNode false (-1) r] -> last_sp p = -1 -> y_cache p = c -> wf s -> ok_cache N s c ->
  live s r -> (5 <= r)%nat -> own (hp s) r (empty_of (kind_d d)) (fun z => z = r) ->
  exists p' s' D', run p s (lines_d i d) = Ok (None, p', s') /\ chg s c (fun z => z = r) s' D' /\ own (hp s') r (val_d d) D' /\ y_root p' = y_root p.
Proof.
  intros GD ST LS YC W OC L R5 O.
  assert (AT : atl p (Z.of_nat i) (Z.of_nat i) (mkNode false (-1) r) []).
  { exists []. split; [exact ST|]. split; [cbn [y_sp]; lia|]. split; [constructor|]. unfold lsp. rewrite ST. cbn [y_map y_sp]. rewrite andb_false_r. exact LS. }
  assert (GR : good s (fun z => z = r)) by (intros z ->; auto).
  destruct d as [es li|l]; cbn [lines_d val_d good_d kind_d empty_of] in *.
  - destruct GD as (NE & GE & DE & GI).
    destruct (proj1 (proj2 (tree_ok E G pick cf)) es p s c _ i (Z.of_nat i) (mkNode false (-1) r) [] false [] AT ltac:(lia) YC W OC GR O (or_intror eq_refl) GE DE)
      as (p' & s' & D' & H & C & O' & AT' & KP).
    destruct (match li with INil => true | _ => false end) eqn:QI.
    + destruct li; try discriminate. cbn [lines_i]. rewrite app_nil_r.
      exists p', s', D'. split; [exact H|]. split; [exact C|]. split; [|apply KP]. destruct es; [congruence|]. exact O'.
    + assert (NI : li <> INil) by (intros ->; discriminate).
      assert (VL : forall a b : value, match li with INil => a | _ => b end = b) by (intros; destruct li; [congruence| |]; reflexivity).
      rewrite VL. rewrite (run_then E G pick cf _ _ _ _ _ _ H).
      assert (GD' : good s' D').
      { intros z Z'. destruct (ch_new _ _ _ _ _ C z Z') as (A & B & _). auto. }
      assert (W' : wf s') by apply C.
      assert (OC' : ok_cache N s' c) by exact (chg_cache _ _ _ _ _ C W GR OC).
      cbn [y_v] in *. pose proof (own_obj_in _ _ _ _ _ O') as DR.
      assert (DT : c_dt (hp s' r) = TObject) by (apply HeapBase.vt_eqb_eq; exact (own_kind _ _ _ _ KObj O')).
      rewrite (items_reset E G pick cf p' s' i li _ _ _ AT' NI GI DT R5). cbn [y_v].
      pose proof (chg_reset G s' c D' r TArray W' GD' DR) as CR.
      unfold Reset. rewrite (proj2 (ReadOnly_ge _) R5). set (s2 := set_cell s' r _) in *.
      assert (O2 : own (hp s2) r (empty_of KArr) (fun z => z = r)).
      { apply own_empty; auto. subst s2. cbn [set_cell hp]. rewrite upd_same. apply clean_reset. }
      assert (CR2 : chg s' c D' s2 (fun z => z = r)) by (apply (chg_sub _ _ _ _ _ _ CR); intros z ->; exact DR).
      assert (W2 : wf s2) by apply CR2.
      assert (G2 : good s2 (fun z => z = r)) by (intros z ->; split; [exact R5|exact (ch_lives _ _ _ _ _ CR2 _ (proj2 (GD' r DR)))]).
      assert (OC2 : ok_cache N s2 c) by exact (chg_cache _ _ _ _ _ CR2 W' GD' OC').
      assert (AT2 : atl p' (Z.of_nat i) (Z.of_nat i) (mkNode false (-1) r) []) by exact AT'.
      destruct (proj2 (proj2 (tree_ok E G pick cf)) li p' s2 c _ i (mkNode false (-1) r) [] [] AT2 ltac:(rewrite <- YC; apply KP) W2 OC2 G2 O2 GI)
        as (p3 & s3 & D3 & H3 & C3 & O3 & _ & KP3).
      exists p3, s3, D3. split; [exact H3|]. split.
      * apply (chg_trans _ _ _ s' D' _ _ W C). apply (chg_trans _ _ _ s2 _ _ _ W' CR2 C3).
      * split; [exact O3|]. destruct KP as [_ KP]. destruct KP3 as [_ KP3]. intuition congruence.
  - destruct GD as (NE & GI).
    destruct (proj2 (proj2 (tree_ok E G pick cf)) l p s c _ i (mkNode false (-1) r) [] [] AT YC W OC GR O GI)
      as (p' & s' & D' & H & C & O' & _ & KP).
    exists p', s', D'. split; [exact H|]. split; [exact C|]. split; [exact O'|apply KP].
Qed.
Lemma lines_d_ok i d : good_d d -> lines_d i d <> [] /\ Forall line_ok (lines_d i d).
Proof.
  destruct d as [es li|l]; cbn [lines_d good_d].
  - intros (NE & GE & _ & GI). split; [|apply Forall_app; split; [apply (proj1 (proj2 (lines_ok_all same))); exact GE|apply (proj2 (proj2 (lines_ok_all same))); exact GI]].
    destruct es as [|k t r]; [congruence|]. change ((lines_t i k t ++ lines_e i r) ++ lines_i i li <> []). destruct t; discriminate.
  - intros (NE & GI). split; [|apply (proj2 (proj2 (lines_ok_all same))); exact GI]. destruct l; [congruence|discriminate|discriminate].
Qed.
(** The first line of a document. *)
Lemma first_body i d : good_d d -> exists body rest, lines_d i d = (blanks i ++ body) :: rest /\ body <> [] /\ hd 0 body <> 32 /\ hd 0 body <> 10 /\ hd 0 body <> 13 /\ hd 0 body <> 35 /\
  no_comment body /\ (if hd 0 body =? 45 then exists b, tl body = 32 :: b else exists k v, splitKv body = (k, v, true) /\ k <> []) /\ kind_of body = vt_of (kind_d d) /\
  (forall k t r li, d = DMap (ECons k t r) li -> hd 0 body = hd 0 k) /\ (forall l, d = DList l -> hd 0 body = 45).
Proof.
  destruct d as [es li|l]; cbn [lines_d good_d kind_d].
  - intros (NE & GE & _). destruct es as [|k t r]; [congruence|]. destruct GE as (PK & GT & _).
    change (lines_e i (ECons k t r)) with (lines_t i k t ++ lines_e i r).
    pose proof PK as (K1 & [K2 K2'] & _ & _ & _ & K5 & K6 & _).
    assert (NW : hd 0 k <> 32 /\ hd 0 k <> 10 /\ hd 0 k <> 13).
    { repeat split; intros Q; apply K2; rewrite Q; cbn [In]; auto. }
    assert (HK : forall b, hd 0 (k ++ b) = hd 0 k) by (intros b; apply hd_app; auto).
    assert (KD : forall b, kind_of (k ++ b) = TObject) by (intros b; unfold kind_of; rewrite HK; destruct (Z.eqb_spec (hd 0 k) 45); [contradiction|reflexivity]).
    assert (KB : exists v rest, (lines_t i k t ++ lines_e i r) ++ lines_i i li = (blanks i ++ k ++ 58 :: v) :: rest /\ no_comment (k ++ 58 :: v) /\
      exists v', splitKv (k ++ 58 :: v) = (k, v', true)).
    { destruct t as [v|d es|d l].
      - exists (32 :: v). eexists. split; [reflexivity|]. split; [apply no_comment_kv; auto|]. exists v. apply split_kv_text; [auto|apply GT|apply GT].
      - exists []. eexists. split; [reflexivity|]. split; [apply no_comment_key; auto|]. exists []. apply split_key; auto.
      - exists []. eexists. split; [reflexivity|]. split; [apply no_comment_key; auto|]. exists []. apply split_key; auto. }
    destruct KB as (v & rest & Q & NC & v' & SK). exists (k ++ 58 :: v), rest. rewrite HK.
    split; [exact Q|]. split; [destruct k; discriminate|]. split; [tauto|]. split; [tauto|]. split; [tauto|]. split; [exact K5|]. split; [exact NC|].
    split; [destruct (Z.eqb_spec (hd 0 k) 45); [contradiction|eauto]|]. split; [apply KD|]. split; [|discriminate].
    intros k0 t0 r0 l0 Q0. injection Q0 as <- _ _ _. reflexivity.
  - intros (NE & GI).
    assert (H : exists v rest, lines_i i l = (blanks i ++ 45 :: 32 :: v) :: rest /\ no_comment (45 :: 32 :: v)).
    { destruct l as [|v r|k v es r]; [congruence| |].
      - destruct GI as ((V1 & V2 & V3 & V4 & V5 & V6 & V7) & _). exists v. eexists. split; [reflexivity|].
        apply no_comment_cons; [discriminate|apply no_comment_sp; auto].
      - destruct GI as (PK & PV & _). exists (k ++ [58; 32] ++ v). eexists. split; [reflexivity|].
        apply no_comment_cons; [discriminate|apply no_comment_sp; [|apply no_comment_kv; auto]]. destruct PK as (K1 & _ & _ & _ & _ & K & _). rewrite hd_app; auto. }
    destruct H as (v & rest & Q & NC). exists (45 :: 32 :: v), rest. split; [exact Q|]. split; [discriminate|]. cbn [hd tl].
    split; [discriminate|]. split; [discriminate|]. split; [discriminate|]. split; [discriminate|]. split; [exact NC|].
    split; [change (exists b, 32 :: v = 32 :: b); eauto|]. split; [reflexivity|]. split; [discriminate|reflexivity].
Qed.

(** ** Documents given by their first line and by what their lines make of an empty root *)
Definition starts (i : nat) (ls : list bytes) (k : bkind) (c : Z) : Prop := exists body rest, ls = (blanks i ++ body) :: rest /\ body <> [] /\
  hd 0 body = c /\ c <> 32 /\ c <> 10 /\ c <> 13 /\ c <> 35 /\ no_comment body /\
  (if c =? 45 then exists b, tl body = 32 :: b else exists k v, splitKv body = (k, v, true) /\ k <> []) /\ kind_of body = vt_of k.
Definition at_root p s c r k : Prop := stack p = [mkNode false (-1) r] /\ last_sp p = -1 /\ y_cache p = c /\ wf s /\ ok_cache N s c /\
  live s r /\ (5 <= r)%nat /\ own (hp s) r (empty_of k) (fun z => z = r).
Definition into (ls : list bytes) (k : bkind) (w : value) : Prop := forall p s c r, at_root p s c r k ->
  exists p' s' D', run p s ls = Ok (None, p', s') /\ chg s c (fun z => z = r) s' D' /\ own (hp s') r w D' /\ y_root p' = y_root p.
Definition fails (ls : list bytes) (k : bkind) : Prop := forall p s c r, at_root p s c r k -> exists p' s', run p s ls = Ok (Some ErrYaml, p', s').
Lemma starts_d i d : good_d d -> exists c, starts i (lines_d i d) (kind_d d) c /\
  (forall k t r li, d = DMap (ECons k t r) li -> c = hd 0 k) /\ (forall l, d = DList l -> c = 45).
Proof.
  intros GD. destruct (first_body i d GD) as (body & rest & Q & NB & H32 & H10 & H13 & H35 & NC & SH & KD & HM & HL).
  exists (hd 0 body). split; [exists body, rest; repeat (split; [first [assumption | reflexivity]|]); exact KD|]. split; assumption.
Qed.
Lemma into_d i d : good_d d -> into (lines_d i d) (kind_d d) (val_d d).
Proof. intros GD p s c r (A & B & C & D & F & K & L & M). apply doc_steps; auto. Qed.

Lemma new_start p s i ls k c m nl : wf s -> stack p = [] -> Forall line_ok ls -> starts i ls k c -> k <> KNull -> (List.length ls < m)%nat ->
  exists p1 s1 r, yparse E G pick cf m p s (doc (ls ++ YamlFlat.fin nl)) = run p1 s1 ls /\ at_root p1 s1 (y_cache p1) r k /\ y_root p1 = Some r /\
    ~ live s r /\ (forall x, live s x -> hp s1 x = hp s x /\ live s1 x).
Proof.
  intros W ST FL (body & rest & Q & NB & HC & H32 & H10 & H13 & H35 & NC & SH & KD) NK LE.
  assert (NE : ls <> []) by (rewrite Q; discriminate). rewrite doc_run by auto.
  set (p0 := started _). assert (ST0 : stack p0 = []) by exact ST. assert (LS0 : last_sp p0 = -1) by reflexivity. clearbody p0.
  assert (RUN : run p0 s ls = let '(p1, s1, _) := new_root G pick p0 s (vt_of k) in run p1 s1 ls).
  { rewrite Q in *. cbn [YamlThms.run]. inversion FL as [|? ? [L2 _] _]; subst.
    destruct (Nat.ltb_spec (List.length (blanks i ++ body)) 2); [lia|]. rewrite root_line by auto. rewrite KD.
    destruct (new_root G pick p0 s (vt_of k)) as [[p1 s1] r]. cbn [YamlThms.run]. reflexivity. }
  rewrite RUN. pose proof (new_root_tree p0 s _ k W eq_refl NK) as NR. pose proof (root_stack p0 s (vt_of k) ST0 LS0) as RS.
  destruct (new_root G pick p0 s (vt_of k)) as [[p1 s1] r]. destruct NR as (W1 & L1 & R5 & NL & O1 & OC1 & FR). destruct RS as (ST1 & LS1 & RT1).
  exists p1, s1, r. split; [reflexivity|]. split; [repeat (split; [assumption|]); split; [reflexivity|]; repeat (split; [assumption|]); assumption|].
  split; [exact RT1|]. split; assumption.
Qed.
Theorem new_into m p s i ls k c w nl use : wf s -> stack p = [] -> Forall line_ok ls -> starts i ls k c -> k <> KNull -> into ls k w -> (List.length ls < m)%nat ->
  exists r p' s', NewValueFromYaml E G pick cf m p s (doc (ls ++ YamlFlat.fin nl)) use = Ok (None, Some r, p', s') /\ wf s' /\ live s' r /\
    rep (hp s') (Some r) w /\ (forall x, live s x -> hp s' x = hp s x /\ live s' x) /\
    (forall x, reach (hp s') r x -> (5 <= x)%nat /\ ~ live s x /\ live s' x) /\ exists D, own (hp s') r w D.
Proof.
  intros W ST FL SS NK IN LE. unfold NewValueFromYaml.
  match goal with |- context [yparse E G pick cf m ?p0 s _] => destruct (new_start p0 s i ls k c m nl W ST FL SS NK LE) as (p1 & s1 & r & RUN & AR & RT1 & NL & FR) end.
  rewrite RUN. destruct (IN p1 s1 (y_cache p1) r AR) as (p' & s' & D' & H & C & O' & RT). destruct AR as (_ & _ & _ & W1 & _ & L1 & R5 & _).
  rewrite H. cbn [bind]. rewrite RT, RT1. exists r, (yreset p'), s'. split; [reflexivity|]. split; [apply C|]. split; [apply C; exact L1|].
  destruct (proj1 (own_rep_all (hp s')) _ _ _ O') as [R RE]. split; [exact R|].
  assert (NS : forall x, live s x -> x <> r) by (intros x X ->; auto).
  split; [|split; [|exists D'; exact O']].
  - intros x X. destruct (FR x X) as [F1 F2]. split; [|exact (ch_lives _ _ _ _ _ C _ F2)]. rewrite <- F1. apply (ch_frame _ _ _ _ _ C); auto.
  - intros x X. destruct (ch_new _ _ _ _ _ C x (RE x X)) as (A & B & K). split; [exact A|]. split; [|exact B].
    intros LX. destruct (FR x LX) as [_ LX1]. destruct K as [->|K]; auto.
Qed.
Theorem new_fails m p s i ls k c nl use : wf s -> stack p = [] -> Forall line_ok ls -> starts i ls k c -> k <> KNull -> fails ls k -> (List.length ls < m)%nat ->
  exists p' s', NewValueFromYaml E G pick cf m p s (doc (ls ++ YamlFlat.fin nl)) use = Ok (Some ErrYaml, None, p', s').
Proof.
  intros W ST FL SS NK IN LE. unfold NewValueFromYaml.
  match goal with |- context [yparse E G pick cf m ?p0 s _] => destruct (new_start p0 s i ls k c m nl W ST FL SS NK LE) as (p1 & s1 & r & RUN & AR & RT1 & NL & FR) end.
  rewrite RUN. destruct (IN p1 s1 (y_cache p1) r AR) as (p' & s' & H). rewrite H. cbn [bind]. eauto.
Qed.
Theorem tree_new_own m p s i d nl use : wf s -> stack p = [] -> good_d d -> (List.length (lines_d i d) < m)%nat ->
  exists r p' s', NewValueFromYaml E G pick cf m p s (doc (lines_d i d ++ YamlFlat.fin nl)) use = Ok (None, Some r, p', s') /\ wf s' /\ live s' r /\
    rep (hp s') (Some r) (val_d d) /\ (forall x, live s x -> hp s' x = hp s x /\ live s' x) /\
    (forall x, reach (hp s') r x -> (5 <= x)%nat /\ ~ live s x /\ live s' x) /\ exists D, own (hp s') r (val_d d) D.
Proof.
  intros W ST GD LE. destruct (starts_d i d GD) as (c & SS & _).
  apply (new_into m p s i _ (kind_d d) c); auto; [apply lines_d_ok; auto|destruct d; discriminate|apply into_d; auto].
Qed.
Theorem tree_new m p s i d nl use : wf s -> stack p = [] -> good_d d -> (List.length (lines_d i d) < m)%nat ->
  exists r p' s', NewValueFromYaml E G pick cf m p s (doc (lines_d i d ++ YamlFlat.fin nl)) use = Ok (None, Some r, p', s') /\ wf s' /\ live s' r /\
    rep (hp s') (Some r) (val_d d) /\ (forall x, live s x -> hp s' x = hp s x /\ live s' x) /\
    (forall x, reach (hp s') r x -> (5 <= x)%nat /\ ~ live s x /\ live s' x).
Proof.
  intros W ST GD LE. destruct (tree_new_own m p s i d nl use W ST GD LE) as (r & p' & s' & A & B & C & D & F & K & _).
  exists r, p', s'. auto 8.
Qed.

Lemma load_start m p s s1 l ls k c nl : wf s -> Clear s l = Ok s1 -> live s1 l -> (5 <= l)%nat -> stack p = [] -> Forall line_ok ls ->
  starts 0 ls k c -> k <> KNull -> c <> 9 -> (List.length ls < m)%nat ->
  exists p2 s2, LoadFromYaml E G pick cf m p s l (doc (ls ++ YamlFlat.fin nl)) = (do (e, p3, s3) <- run p2 s2 ls; Ok (e, yreset p3, s3)) /\
    at_root p2 s2 (y_cache p2) l k /\ chg s1 None (fun z => z = l) s2 (fun z => z = l).
Proof.
  intros W CL L L5 ST FL (body & rest & Q & NB & HC & H32 & H10 & H13 & H35 & NC & SH & KD) NK H9 LE. unfold LoadFromYaml. rewrite CL. cbn [bind].
  assert (NE : ls <> []) by (rewrite Q; discriminate).
  assert (HD : exists b, doc (ls ++ YamlFlat.fin nl) = c :: b).
  { rewrite Q. cbn [blanks repeat app]. destruct body as [|b0 body]; [congruence|]. cbn [hd] in HC. subst b0.
    change (exists b, doc ((c :: body) :: (rest ++ YamlFlat.fin nl)) = c :: b); destruct (rest ++ YamlFlat.fin nl); eexists; reflexivity. }
  destruct HD as (b & HD). assert (DW : drop_ws (doc (ls ++ YamlFlat.fin nl)) = c :: b).
  { rewrite HD. cbn [drop_ws]. destruct (Z.eqb_spec c 32); [contradiction|]. destruct (Z.eqb_spec c 13); [contradiction|].
    destruct (Z.eqb_spec c 10); [contradiction|]. destruct (Z.eqb_spec c 9); [contradiction|]. reflexivity. }
  rewrite DW, <- HD. replace (if c =? 45 then TArray else TObject) with (vt_of k) by (rewrite <- KD; unfold kind_of; rewrite HC; reflexivity). cbv zeta.
  rewrite doc_run by auto.
  assert (W1 : wf s1) by exact (clear_live_wf s s1 l W CL L).
  assert (GL : good s1 (fun z => z = l)) by (intros z ->; auto).
  pose proof (chg_reset G s1 None (fun z => z = l) l (vt_of k) W1 GL eq_refl) as CR.
  unfold Reset. rewrite (proj2 (ReadOnly_ge _) L5). set (s2 := set_cell s1 l _) in *.
  assert (O2 : own (hp s2) l (empty_of k) (fun z => z = l)).
  { apply own_empty; auto. subst s2. cbn [set_cell hp]. rewrite upd_same. apply clean_reset. }
  assert (W2 : wf s2) by apply CR. assert (L2 : live s2 l) by (exact (ch_lives _ _ _ _ _ CR _ L)).
  assert (OC2 : ok_cache N s2 (c_own (hp s2 l))) by (apply (own_ok N N); auto; split; [apply L2|intros []]).
  eexists _, s2. split; [reflexivity|]. split; [|exact CR].
  split; [cbn [stack started]; rewrite ST; reflexivity|]. split; [reflexivity|]. split; [reflexivity|]. split; [exact W2|]. split; [exact OC2|]. auto.
Qed.
Theorem load_into m p s s1 l ls k c w nl : wf s -> Clear s l = Ok s1 -> live s1 l -> (5 <= l)%nat -> stack p = [] -> Forall line_ok ls ->
  starts 0 ls k c -> k <> KNull -> c <> 9 -> into ls k w -> (List.length ls < m)%nat ->
  exists p' s', LoadFromYaml E G pick cf m p s l (doc (ls ++ YamlFlat.fin nl)) = Ok (None, p', s') /\ wf s' /\ live s' l /\
    rep (hp s') (Some l) w /\ (forall x, live s1 x -> x <> l -> hp s' x = hp s1 x /\ live s' x) /\
    (forall x, reach (hp s') l x -> x = l \/ ~ live s1 x) /\ exists D, own (hp s') l w D.
Proof.
  intros W CL L L5 ST FL SS NK H9 IN LE. destruct (load_start m p s s1 l ls k c nl W CL L L5 ST FL SS NK H9 LE) as (p2 & s2 & RUN & AR & CR).
  rewrite RUN. destruct (IN p2 s2 (y_cache p2) l AR) as (p' & s' & D' & H & C & O' & RT). destruct AR as (_ & _ & _ & W2 & _ & L2 & _).
  rewrite H. cbn [bind]. exists (yreset p'), s'. split; [reflexivity|]. split; [apply C|]. split; [apply C; exact L2|].
  destruct (proj1 (own_rep_all (hp s')) _ _ _ O') as [R RE]. split; [exact R|]. split; [|split; [|exists D'; exact O']].
  - intros x X NX. pose proof (ch_lives _ _ _ _ _ CR _ X) as X2. split; [|exact (ch_lives _ _ _ _ _ C _ X2)].
    rewrite (ch_frame _ _ _ _ _ C x X2 NX). exact (ch_frame _ _ _ _ _ CR x X NX).
  - intros x X. destruct (ch_new _ _ _ _ _ C x (RE x X)) as (_ & _ & [K|K]); [auto|]. right. intros K2. apply K. exact (ch_lives _ _ _ _ _ CR _ K2).
Qed.
Theorem load_fails m p s s1 l ls k c nl : wf s -> Clear s l = Ok s1 -> live s1 l -> (5 <= l)%nat -> stack p = [] -> Forall line_ok ls ->
  starts 0 ls k c -> k <> KNull -> c <> 9 -> fails ls k -> (List.length ls < m)%nat ->
  exists p' s', LoadFromYaml E G pick cf m p s l (doc (ls ++ YamlFlat.fin nl)) = Ok (Some ErrYaml, p', s').
Proof.
  intros W CL L L5 ST FL SS NK H9 IN LE. destruct (load_start m p s s1 l ls k c nl W CL L L5 ST FL SS NK H9 LE) as (p2 & s2 & RUN & AR & CR).
  rewrite RUN. destruct (IN p2 s2 (y_cache p2) l AR) as (p' & s' & H). rewrite H. cbn [bind]. eauto.
Qed.
Theorem tree_load_own m p s s1 l d nl : wf s -> Clear s l = Ok s1 -> live s1 l -> (5 <= l)%nat -> stack p = [] -> good_d d ->
  (forall k t r li, d = DMap (ECons k t r) li -> hd 0 k <> 9) -> (List.length (lines_d 0 d) < m)%nat ->
  exists p' s', LoadFromYaml E G pick cf m p s l (doc (lines_d 0 d ++ YamlFlat.fin nl)) = Ok (None, p', s') /\ wf s' /\ live s' l /\
    rep (hp s') (Some l) (val_d d) /\ (forall x, live s1 x -> x <> l -> hp s' x = hp s1 x /\ live s' x) /\
    (forall x, reach (hp s') l x -> x = l \/ ~ live s1 x) /\ exists D, own (hp s') l (val_d d) D.
Proof.
  intros W CL L L5 ST GD H9 LE. destruct (starts_d 0 d GD) as (c & SS & HM & HL).
  apply (load_into m p s s1 l _ (kind_d d) c); auto; [apply lines_d_ok; auto|destruct d; discriminate| |apply into_d; auto].
  destruct d as [es li|li]; [|rewrite (HL li eq_refl); discriminate]. destruct es as [|k t r]; [destruct GD; congruence|].
  rewrite (HM k t r li eq_refl). apply (H9 k t r li eq_refl).
Qed.
Theorem tree_load m p s s1 l d nl : wf s -> Clear s l = Ok s1 -> live s1 l -> (5 <= l)%nat -> stack p = [] -> good_d d ->
  (forall k t r li, d = DMap (ECons k t r) li -> hd 0 k <> 9) -> (List.length (lines_d 0 d) < m)%nat ->
  exists p' s', LoadFromYaml E G pick cf m p s l (doc (lines_d 0 d ++ YamlFlat.fin nl)) = Ok (None, p', s') /\ wf s' /\ live s' l /\
    rep (hp s') (Some l) (val_d d) /\ (forall x, live s1 x -> x <> l -> hp s' x = hp s1 x /\ live s' x) /\
    (forall x, reach (hp s') l x -> x = l \/ ~ live s1 x).
Proof.
  intros W CL L L5 ST GD H9 LE. destruct (tree_load_own m p s s1 l d nl W CL L L5 ST GD H9 LE) as (p' & s' & A & B & C & D & F & K & _).
  exists p', s'. auto 8.
Qed.
End Docs.

(** ** Plain values *)
Lemma plain_line v : plain_value v -> line_value v.
Proof. intros (V1 & V2 & V3 & V4 & V5 & V6 & V7 & _). repeat split; auto; apply V2. Qed.
Lemma plain_loaded E v : plain_value v -> loaded E v = scalar E v.
Proof.
  intros (_ & _ & _ & _ & _ & _ & _ & A & B). assert (FL : flow v = false).
  { unfold flow. apply orb_false_iff. split; apply Bool.not_true_is_false; intros Q; apply andb_true_iff in Q as [Q1 Q2]; apply Z.eqb_eq in Q1, Q2; auto. }
  unfold loaded. rewrite FL. destruct (scalar E v); reflexivity.
Qed.
Lemma plain_good same :
  (forall t, good_t plain_value same t -> good_t line_value same t) /\
  (forall es, good_e plain_value same es -> good_e line_value same es) /\
  (forall l, good_i plain_value same l -> good_i line_value same l).
Proof.
  pose proof plain_line as PL. apply ytree_mut.
  - intros v. apply PL.
  - intros d es IH (GE & DE). exact (conj (IH GE) DE).
  - intros d l IH (NE & GI). exact (conj NE (IH GI)).
  - auto.
  - intros k t IHt r IHr (PK & GT & GR). exact (conj PK (conj (IHt GT) (IHr GR))).
  - auto.
  - intros v r IHr (PV & NC & GR). exact (conj (PL _ PV) (conj NC (IHr GR))).
  - intros k v es IHe r IHr (PK & PV & GE & DE & GR). exact (conj PK (conj (PL _ PV) (conj (IHe GE) (conj DE (IHr GR))))).
Qed.
Lemma plain_val E same :
  (forall t, good_t plain_value same t -> val_t (loaded E) t = val_t (scalar E) t) /\
  (forall es, good_e plain_value same es -> val_e (loaded E) es = val_e (scalar E) es) /\
  (forall l, good_i plain_value same l -> val_i (loaded E) l = val_i (scalar E) l).
Proof.
  pose proof (plain_loaded E) as PL. apply ytree_mut.
  - intros v. apply PL.
  - intros d es IH (GE & _). cbn [val_t]. f_equal. apply IH, GE.
  - intros d l IH (_ & GI). cbn [val_t]. f_equal. apply IH, GI.
  - auto.
  - intros k t IHt r IHr (_ & GT & GR). change ((k, val_t (loaded E) t) :: val_e (loaded E) r = (k, val_t (scalar E) t) :: val_e (scalar E) r).
    rewrite IHt, IHr by auto. reflexivity.
  - auto.
  - intros v r IHr (PV & _ & GR). cbn [val_i]. rewrite PL, IHr by auto. reflexivity.
  - intros k v es IHe r IHr (_ & PV & GE & _ & GR).
    change (VObject true ((k, loaded E v) :: val_e (loaded E) es) :: val_i (loaded E) r = VObject true ((k, scalar E v) :: val_e (scalar E) es) :: val_i (scalar E) r).
    rewrite PL, IHe, IHr by auto. reflexivity.
Qed.
