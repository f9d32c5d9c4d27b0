(** Documents that are nested mappings or lists with anchors and aliases on scalars. *)
From Verif Require Import Base Values Tactics HeapModel HeapSpec HeapBase HeapConf HeapGet ApiSpec HeapMap
  HeapCalls HeapObj HeapForce HeapClone HeapTyped BsonModel BsonLoadThms YamlModel YamlSpec YamlThms YamlFlat YamlTreeSpec YamlTree
  YamlTreeDoc YamlRefSpec YamlRef.

Lemma rlines_ok_all E same :
  (forall t A, rgood_t E same A t -> forall i k, plain_key k -> Forall line_ok (rlines_t i k t)) /\
  (forall es A, rgood_e E same A es -> forall i, Forall line_ok (rlines_e i es)) /\
  (forall l A, rgood_i E same A l -> forall i, Forall line_ok (rlines_i i l)).
Proof.
  assert (K10 : forall k b, plain_key k -> ~ In 10 b -> ~ In 10 (k ++ 58 :: b)).
  { intros k b (_ & _ & _ & _ & K & _) B X. apply in_app_or in X as [X|[X|X]]; auto; discriminate. }
  assert (T10 : forall v, good_s v -> ~ In 10 (text v)) by (intros v GS; apply (text_ok v GS)).
  assert (FL : forall i k v, plain_key k -> good_s v -> line_ok (flat_line i (k, text v))).
  { intros i k v PK GS. split; [apply (flat_len (fun n => n)); auto|]. apply blanks_nn. apply K10; auto.
    intros [X|X]; [discriminate|exact (T10 v GS X)]. }
  assert (KL : forall i k, plain_key k -> line_ok (key_line i k)).
  { intros i k PK. split; [apply (key_len (fun n => n)); auto|]. apply blanks_nn. apply K10; auto. }
  assert (IL : forall i v, ~ In 10 v -> line_ok (item_line i v)).
  { intros i v PV. split; [apply (item_len (fun n => n))|]. refine (blanks_nn i ([45; 32] ++ v) _). intros [X|[X|X]]; auto; discriminate. }
  apply rtree_mut.
  - intros v A PV i k PK. constructor; [apply FL; auto|constructor].
  - intros d es IH A (GE & _) i k PK. constructor; [apply KL; auto|apply (IH A); auto].
  - intros d l IH A [_ GI] i k PK. constructor; [apply KL; auto|apply (IH A); auto].
  - intros A _ i. constructor.
  - intros k t IHt r IHr A (PK & GT & GR) i. apply Forall_app. split; [apply (IHt A); auto|eapply IHr; exact GR].
  - intros A _ i. constructor.
  - intros v r IHr A (PV & _ & GR) i. constructor; [|eapply IHr; exact GR]. apply IL. auto.
  - intros k v es IHe r IHr A (PK & PV & GE & _ & GR) i. constructor.
    + apply IL. apply K10; auto. intros [X|X]; [discriminate|exact (T10 v PV X)].
    + apply Forall_app. split; [eapply IHe; exact GE|eapply IHr; exact GR].
Qed.

Section Docs.
Variable E : env.
Variable G : nat -> nat.
Variable pick : st -> option nat.
Variable cf : nat.
Hypothesis CF : (0 < cf)%nat.
Hypothesis refs38 : forall r, x_parsefloat E (38 :: r) = None.
Hypothesis refs42 : forall r, x_parsefloat E (42 :: r) = None.
Notation N := none_set.
Notation same := (key_match E).
Notation run := (run E G pick cf).

Inductive rdoc := DRMap (es : rents) | DRList (l : ritems).
Definition lines_r (i : nat) (d : rdoc) : list bytes := match d with DRMap es => rlines_e i es | DRList l => rlines_i i l end.
Definition val_r (d : rdoc) : value := match d with DRMap es => VObject true (rval_e E [] es) | DRList l => VArray (rval_i E [] l) end.
Definition good_r (d : rdoc) : Prop :=
  match d with
  | DRMap es => es <> RNil /\ rgood_e E same [] es /\ distinct same (keys_r es)
  | DRList l => l <> LNil /\ rgood_i E same [] l
  end.
Definition kind_r (d : rdoc) : bkind := match d with DRMap _ => KObj | DRList _ => KArr end.

Lemma rdoc_steps p s c r i d : good_r d -> stack p = [mkNode false (-1) r] -> last_sp p = -1 -> uses p = [] -> y_cache p = c -> wf s -> ok_cache N s c ->
  live s r -> (5 <= r)%nat -> own (hp s) r (empty_of (kind_r d)) (fun z => z = r) ->
  exists p' s' D', run p s (lines_r i d) = Ok (None, p', s') /\ chg s c (fun z => z = r) s' D' /\ own (hp s') r (val_r d) D' /\ y_root p' = y_root p.
Proof.
  intros GD ST LS US YC W OC L R5 O.
  assert (AT : atl p (Z.of_nat i) (Z.of_nat i) (mkNode false (-1) r) []).
  { exists []. split; [exact ST|]. split; [cbn [y_sp]; lia|]. split; [constructor|]. unfold lsp. rewrite ST. cbn [y_map y_sp]. rewrite andb_false_r. exact LS. }
  assert (GR : good s (fun z => z = r)) by (intros z ->; auto).
  assert (K : known E s (uses p) []) by (rewrite US; apply known_nil).
  destruct d as [es|l]; cbn [lines_r val_r good_r kind_r empty_of] in *.
  - destruct GD as (NE & GE & DE).
    assert (NB : not_bool_alias [] es) by (destruct es as [|? [[]| |] ?]; try exact I; split; discriminate).
    destruct (proj1 (proj2 (rtree_ok E G pick cf CF refs38 refs42)) es p s c _ i (Z.of_nat i) (-1) (mkNode false (-1) r) [] false [] [] AT ltac:(lia) ltac:(lia) ltac:(lia) YC W OC GR O (or_intror eq_refl) GE DE K (or_introl NB))
      as (p' & s' & D' & H & C & O' & _ & KP & _).
    exists p', s', D'. split; [exact H|]. split; [exact C|]. split; [|apply KP]. destruct es; [congruence|]. exact O'.
  - destruct GD as (NE & GI).
    destruct (proj2 (proj2 (rtree_ok E G pick cf CF refs38 refs42)) l p s c _ i (-1) (mkNode false (-1) r) [] [] [] AT ltac:(lia) ltac:(lia) YC W OC GR O GI K)
      as (p' & s' & D' & H & C & O' & _ & KP & _).
    exists p', s', D'. split; [exact H|]. split; [exact C|]. split; [exact O'|apply KP].
Qed.
Lemma lines_r_ok i d : good_r d -> lines_r i d <> [] /\ Forall line_ok (lines_r i d).
Proof.
  destruct d as [es|l]; cbn [lines_r good_r].
  - intros (NE & GE & _). split; [|eapply (proj1 (proj2 (rlines_ok_all E same))); exact GE].
    destruct es as [|k t r]; [congruence|]. change (rlines_t i k t ++ rlines_e i r <> []). destruct t; discriminate.
  - intros (NE & GI). split; [|eapply (proj2 (proj2 (rlines_ok_all E same))); exact GI]. destruct l; [congruence|discriminate|discriminate].
Qed.
Lemma first_ref i d : good_r d -> exists body rest, lines_r i d = (blanks i ++ body) :: rest /\ body <> [] /\ hd 0 body <> 32 /\ hd 0 body <> 10 /\ hd 0 body <> 13 /\ hd 0 body <> 35 /\
  no_comment body /\ (if hd 0 body =? 45 then exists b, tl body = 32 :: b else exists k v, splitKv body = (k, v, true) /\ k <> []) /\ kind_of body = vt_of (kind_r d) /\
  (forall k t r, d = DRMap (RCons k t r) -> hd 0 body = hd 0 k) /\ (forall l, d = DRList l -> hd 0 body = 45).
Proof.
  destruct d as [es|l]; cbn [lines_r good_r kind_r].
  - intros (NE & GE & _). destruct es as [|k t r]; [congruence|]. destruct GE as (PK & GT & _).
    change (rlines_e i (RCons k t r)) with (rlines_t i k t ++ rlines_e i r).
    pose proof PK as (K1 & [K2 K2'] & _ & _ & _ & K5 & K6 & _).
    assert (NW : hd 0 k <> 32 /\ hd 0 k <> 10 /\ hd 0 k <> 13).
    { repeat split; intros Q; apply K2; rewrite Q; cbn [In]; auto. }
    assert (HK : forall b, hd 0 (k ++ b) = hd 0 k) by (intros b; apply hd_app; auto).
    assert (KD : forall b, kind_of (k ++ b) = TObject) by (intros b; unfold kind_of; rewrite HK; destruct (Z.eqb_spec (hd 0 k) 45); [contradiction|reflexivity]).
    assert (KB : exists v rest, rlines_t i k t ++ rlines_e i r = (blanks i ++ k ++ 58 :: v) :: rest /\ no_comment (k ++ 58 :: v) /\
      exists v', splitKv (k ++ 58 :: v) = (k, v', true)).
    { destruct t as [v|d es|d l].
      - pose proof (text_ok v GT) as TX. exists (32 :: text v). eexists. split; [reflexivity|]. split; [apply no_comment_kvt; auto|].
        exists (text v). apply split_kv_text; auto.
      - exists []. eexists. split; [reflexivity|]. split; [apply no_comment_key; auto|]. exists []. apply split_key; auto.
      - exists []. eexists. split; [reflexivity|]. split; [apply no_comment_key; auto|]. exists []. apply split_key; auto. }
    destruct KB as (v & rest & Q & NC & v' & SK). exists (k ++ 58 :: v), rest. rewrite HK.
    split; [exact Q|]. split; [destruct k; discriminate|]. split; [tauto|]. split; [tauto|]. split; [tauto|]. split; [exact K5|]. split; [exact NC|].
    split; [destruct (Z.eqb_spec (hd 0 k) 45); [contradiction|eauto]|]. split; [apply KD|]. split; [|discriminate].
    intros k0 t0 r0 Q0. injection Q0 as <- _ _. reflexivity.
  - intros (NE & GI).
    assert (H : exists v rest, rlines_i i l = (blanks i ++ 45 :: 32 :: v) :: rest /\ no_comment (45 :: 32 :: v)).
    { destruct l as [|v r|k v es r]; [congruence| |].
      - destruct GI as (GS & _). destruct (text_ok v GS) as (V1 & V2 & V3 & V4 & V5). exists (text v). eexists. split; [reflexivity|].
        apply no_comment_cons; [discriminate|apply no_comment_sp; auto].
      - destruct GI as (PK & GS & _). pose proof (text_ok v GS) as TX. exists (k ++ [58; 32] ++ text v). eexists. split; [reflexivity|].
        apply no_comment_cons; [discriminate|apply no_comment_sp; [|apply no_comment_kvt; auto]]. destruct PK as (K1 & _ & _ & _ & _ & K & _). rewrite hd_app; auto. }
    destruct H as (v & rest & Q & NC). exists (45 :: 32 :: v), rest. split; [exact Q|]. split; [discriminate|]. cbn [hd tl].
    split; [discriminate|]. split; [discriminate|]. split; [discriminate|]. split; [discriminate|]. split; [exact NC|].
    split; [change (exists b, 32 :: v = 32 :: b); eauto|]. split; [reflexivity|]. split; [discriminate|reflexivity].
Qed.
Lemma root_uses p s t : let '(p1, _, _) := new_root G pick p s t in uses p1 = uses p.
Proof.
  unfold new_root. destruct (use_cache p).
  - destruct (getCache s (pick s)) as [k' s1]. destruct (getValue G s1 (Some k') t) as [r s2]. reflexivity.
  - destruct (NewCacheValue G s (pick s) t) as [r s2]. reflexivity.
Qed.

Theorem ref_new_own m p s i d nl use : wf s -> stack p = [] -> uses p = [] -> good_r d -> (List.length (lines_r i d) < m)%nat ->
  exists r p' s', NewValueFromYaml E G pick cf m p s (doc (lines_r i d ++ YamlFlat.fin nl)) use = Ok (None, Some r, p', s') /\ wf s' /\ live s' r /\
    rep (hp s') (Some r) (val_r d) /\ (forall x, live s x -> hp s' x = hp s x /\ live s' x) /\
    (forall x, reach (hp s') r x -> (5 <= x)%nat /\ ~ live s x /\ live s' x) /\ exists D, own (hp s') r (val_r d) D.
Proof.
  intros W ST US GD LE. unfold NewValueFromYaml. destruct (lines_r_ok i d GD) as [NE FL]. rewrite doc_run by auto.
  set (p0 := started _). assert (ST0 : stack p0 = []) by exact ST. assert (US0 : uses p0 = []) by exact US. assert (LS0 : last_sp p0 = -1) by reflexivity. clearbody p0.
  destruct (first_ref i d GD) as (body & rest & Q & NB & H32 & _ & _ & H35 & NC & SH & KD & _).
  assert (RUN : run p0 s (lines_r i d) = let '(p1, s1, _) := new_root G pick p0 s (vt_of (kind_r d)) in run p1 s1 (lines_r i d)).
  { rewrite Q in *. cbn [YamlThms.run]. inversion FL as [|? ? [L2 _] _]; subst.
    destruct (Nat.ltb_spec (List.length (blanks i ++ body)) 2); [lia|]. rewrite root_line by auto. rewrite KD.
    destruct (new_root G pick p0 s (vt_of (kind_r d))) as [[p1 s1] r]. cbn [YamlThms.run]. reflexivity. }
  rewrite RUN. pose proof (new_root_tree G pick p0 s _ (kind_r d) W eq_refl ltac:(destruct d; discriminate)) as NR. pose proof (root_stack G pick p0 s (vt_of (kind_r d)) ST0 LS0) as RS.
  pose proof (root_uses p0 s (vt_of (kind_r d))) as RU.
  destruct (new_root G pick p0 s (vt_of (kind_r d))) as [[p1 s1] r]. destruct NR as (W1 & L1 & R5 & NL & O1 & OC1 & FR). destruct RS as (ST1 & LS1 & RT1).
  rewrite US0 in RU.
  destruct (rdoc_steps p1 s1 (y_cache p1) r i d GD ST1 LS1 RU eq_refl W1 OC1 L1 R5 O1) as (p' & s' & D' & H & C & O' & RT).
  rewrite H. cbn [bind]. rewrite RT, RT1. exists r, (yreset p'), s'. split; [reflexivity|]. split; [apply C|]. split; [apply C; exact L1|].
  destruct (proj1 (own_rep_all (hp s')) _ _ _ O') as [R RE]. split; [exact R|].
  assert (NS : forall x, live s x -> x <> r) by (intros x X ->; auto).
  split; [|split; [|exists D'; exact O']].
  - intros x X. destruct (FR x X) as [F1 F2]. split; [|exact (ch_lives _ _ _ _ _ C _ F2)]. rewrite <- F1. apply (ch_frame _ _ _ _ _ C); auto.
  - intros x X. destruct (ch_new _ _ _ _ _ C x (RE x X)) as (A & B & K). split; [exact A|]. split; [|exact B].
    intros LX. destruct (FR x LX) as [_ LX1]. destruct K as [->|K]; auto.
Qed.
Theorem ref_new m p s i d nl use : wf s -> stack p = [] -> uses p = [] -> good_r d -> (List.length (lines_r i d) < m)%nat ->
  exists r p' s', NewValueFromYaml E G pick cf m p s (doc (lines_r i d ++ YamlFlat.fin nl)) use = Ok (None, Some r, p', s') /\ wf s' /\ live s' r /\
    rep (hp s') (Some r) (val_r d) /\ (forall x, live s x -> hp s' x = hp s x /\ live s' x) /\
    (forall x, reach (hp s') r x -> (5 <= x)%nat /\ ~ live s x /\ live s' x).
Proof.
  intros W ST US GD LE. destruct (ref_new_own m p s i d nl use W ST US GD LE) as (r & p' & s' & A & B & C & D & F & K & _).
  exists r, p', s'. auto 8.
Qed.

Theorem ref_load_own m p s s1 l d nl : wf s -> Clear s l = Ok s1 -> live s1 l -> (5 <= l)%nat -> stack p = [] -> uses p = [] -> good_r d ->
  (forall k t r, d = DRMap (RCons k t r) -> hd 0 k <> 9) -> (List.length (lines_r 0 d) < m)%nat ->
  exists p' s', LoadFromYaml E G pick cf m p s l (doc (lines_r 0 d ++ YamlFlat.fin nl)) = Ok (None, p', s') /\ wf s' /\ live s' l /\
    rep (hp s') (Some l) (val_r d) /\ (forall x, live s1 x -> x <> l -> hp s' x = hp s1 x /\ live s' x) /\
    (forall x, reach (hp s') l x -> x = l \/ ~ live s1 x) /\ exists D, own (hp s') l (val_r d) D.
Proof.
  intros W CL L L5 ST US GD H9 LE. unfold LoadFromYaml. rewrite CL. cbn [bind].
  destruct (lines_r_ok 0 d GD) as [NE FL].
  destruct (first_ref 0 d GD) as (body & rest & Q & NB & H32 & H10 & H13 & H35 & NC & SH & KD & HM & HL).
  assert (HD : exists b, doc (lines_r 0 d ++ YamlFlat.fin nl) = hd 0 body :: b).
  { rewrite Q. cbn [blanks repeat app]. destruct body as [|b0 body]; [congruence|]. cbn [hd].
    change (exists b, doc ((b0 :: body) :: (rest ++ YamlFlat.fin nl)) = b0 :: b); destruct (rest ++ YamlFlat.fin nl); eexists; reflexivity. }
  assert (N9 : hd 0 body <> 9).
  { destruct d as [es|li]; [|rewrite (HL li eq_refl); discriminate]. destruct es as [|k t r]; [destruct GD; congruence|].
    rewrite (HM k t r eq_refl). apply (H9 k t r eq_refl). }
  destruct HD as (b & HD). assert (DW : drop_ws (doc (lines_r 0 d ++ YamlFlat.fin nl)) = hd 0 body :: b).
  { rewrite HD. cbn [drop_ws]. destruct (Z.eqb_spec (hd 0 body) 32); [contradiction|]. destruct (Z.eqb_spec (hd 0 body) 13); [contradiction|].
    destruct (Z.eqb_spec (hd 0 body) 10); [contradiction|]. destruct (Z.eqb_spec (hd 0 body) 9); [contradiction|]. reflexivity. }
  rewrite DW, <- HD. fold (kind_of body). rewrite KD. cbv zeta.
  rewrite doc_run by auto.
  assert (W1 : wf s1) by exact (clear_live_wf s s1 l W CL L).
  assert (GL : good s1 (fun z => z = l)) by (intros z ->; auto).
  pose proof (chg_reset G s1 None (fun z => z = l) l (vt_of (kind_r d)) W1 GL eq_refl) as CR.
  unfold Reset. rewrite (proj2 (ReadOnly_ge _) L5). set (s2 := set_cell s1 l _) in *.
  assert (O2 : own (hp s2) l (empty_of (kind_r d)) (fun z => z = l)).
  { apply own_empty; auto. subst s2. cbn [set_cell hp]. rewrite upd_same. apply clean_reset. }
  assert (W2 : wf s2) by apply CR. assert (L2 : live s2 l) by (exact (ch_lives _ _ _ _ _ CR _ L)).
  assert (OC2 : ok_cache N s2 (c_own (hp s2 l))) by (apply (own_ok N N); auto; split; [apply L2|intros []]).
  match goal with |- context [YamlThms.run E G pick cf ?p0 _ _] =>
    destruct (rdoc_steps p0 s2 (c_own (hp s2 l)) l 0 d GD) as (p' & s' & D' & H & C & O' & RT) end; auto.
  - cbn [stack started]. rewrite ST. reflexivity.
  - rewrite H. cbn [bind]. exists (yreset p'), s'. split; [reflexivity|]. split; [apply C|]. split; [apply C; exact L2|].
    destruct (proj1 (own_rep_all (hp s')) _ _ _ O') as [R RE]. split; [exact R|]. split; [|split; [|exists D'; exact O']].
    + intros x X NX. pose proof (ch_lives _ _ _ _ _ CR _ X) as X2. split; [|exact (ch_lives _ _ _ _ _ C _ X2)].
      rewrite (ch_frame _ _ _ _ _ C x X2 NX). exact (ch_frame _ _ _ _ _ CR x X NX).
    + intros x X. destruct (ch_new _ _ _ _ _ C x (RE x X)) as (_ & _ & [K|K]); [auto|]. right. intros K2. apply K. exact (ch_lives _ _ _ _ _ CR _ K2).
Qed.
Theorem ref_load m p s s1 l d nl : wf s -> Clear s l = Ok s1 -> live s1 l -> (5 <= l)%nat -> stack p = [] -> uses p = [] -> good_r d ->
  (forall k t r, d = DRMap (RCons k t r) -> hd 0 k <> 9) -> (List.length (lines_r 0 d) < m)%nat ->
  exists p' s', LoadFromYaml E G pick cf m p s l (doc (lines_r 0 d ++ YamlFlat.fin nl)) = Ok (None, p', s') /\ wf s' /\ live s' l /\
    rep (hp s') (Some l) (val_r d) /\ (forall x, live s1 x -> x <> l -> hp s' x = hp s1 x /\ live s' x) /\
    (forall x, reach (hp s') l x -> x = l \/ ~ live s1 x).
Proof.
  intros W CL L L5 ST US GD H9 LE. destruct (ref_load_own m p s s1 l d nl W CL L L5 ST US GD H9 LE) as (p' & s' & A & B & C & D & F & K & _).
  exists p', s'. auto 8.
Qed.
End Docs.
