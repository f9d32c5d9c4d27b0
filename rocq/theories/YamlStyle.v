(** Lists and mappings one after the other, document markers, and lines that continue a scalar. *)
From Verif Require Import Base Values Tactics HeapModel HeapSpec HeapBase HeapConf HeapGet ApiSpec HeapMap
  HeapCalls HeapObj HeapForce HeapClone HeapTyped BsonModel BsonLoadThms YamlModel YamlSpec YamlThms YamlFlat YamlTreeSpec YamlTree YamlTreeDoc.

Section Style.
Variable E : env.
Variable G : nat -> nat.
Variable pick : st -> option nat.
Variable cf : nat.
Notation N := none_set.
Notation same := (key_match E).
Notation pline := (parseLine E G pick cf).
Notation run := (run E G pick cf).

(** ** The indentation noted after a line *)
Lemma pline_last p s n body p1 s1 : body <> [] -> hd 0 body <> 32 -> hd 0 body <> 35 -> no_comment body ->
  pline p s (blanks n ++ body) (lead (blanks n ++ body)) = Ok (None, p1, s1) -> last_sp p1 = Z.of_nat n.
Proof.
  intros NE N1 N2 NC. rewrite line_body by auto.
  match goal with |- bind ?m _ = _ -> _ => destruct m as [[[e p2] s2]| | |]; try discriminate end.
  cbn [bind]. intros Q. injection Q as _ <- _. reflexivity.
Qed.
Lemma run_last p s ls n body p1 s1 : body <> [] -> hd 0 body <> 32 -> hd 0 body <> 35 -> no_comment body ->
  (2 <= List.length (blanks n ++ body))%nat -> run p s (ls ++ [blanks n ++ body]) = Ok (None, p1, s1) -> last_sp p1 = Z.of_nat n.
Proof.
  intros NE N1 N2 NC L2. rewrite run_app. destruct (run p s ls) as [[[[e|] p2] s2]| | |]; try discriminate. cbn [bind YamlThms.run].
  destruct (Nat.ltb_spec (List.length (blanks n ++ body)) 2); [lia|].
  destruct (pline p2 s2 (blanks n ++ body) (lead (blanks n ++ body))) as [[[[e|] p3] s3]| | |] eqn:PL; try discriminate.
  intros Q. injection Q as <- <-. exact (pline_last _ _ _ _ _ _ NE N1 N2 NC PL).
Qed.

(** ** Mapping entries behind list items *)
Lemma entry_body i k t : plain_key k -> good_t line_value same t -> exists body rest v,
  (forall r, lines_e i (ECons k t r) = (blanks i ++ body) :: rest ++ lines_e i r) /\ (2 <= List.length (blanks i ++ body))%nat /\
  body <> [] /\ hd 0 body <> 32 /\ hd 0 body <> 35 /\ hd 0 body <> 45 /\ no_comment body /\ splitKv body = (k, v, true).
Proof.
  intros PK GT. pose proof PK as (K1 & [K2 K2'] & _ & _ & _ & K5 & K6 & _).
  assert (H : exists w rest v, (forall r, lines_e i (ECons k t r) = (blanks i ++ k ++ 58 :: w) :: rest ++ lines_e i r) /\
    (2 <= List.length (blanks i ++ k ++ 58%Z :: w))%nat /\ no_comment (k ++ 58 :: w) /\ splitKv (k ++ 58 :: w) = (k, v, true)).
  { destruct t as [v|d es|d l].
    - exists (32 :: v), [], v. split; [reflexivity|]. split; [apply (flat_len G i k v PK)|]. split; [apply no_comment_kv; auto|].
      apply split_kv_text; [auto|apply GT|apply GT].
    - exists [], (lines_e (i + S d) es), []. split; [reflexivity|]. split; [apply (key_len G i k PK)|]. split; [apply no_comment_key; auto|apply split_key; auto].
    - exists [], (lines_i (i + S d) l), []. split; [reflexivity|]. split; [apply (key_len G i k PK)|]. split; [apply no_comment_key; auto|apply split_key; auto]. }
  destruct H as (w & rest & v & H1 & H2 & H3 & H4). exists (k ++ 58 :: w), rest, v. rewrite (hd_app k) by auto.
  split; [exact H1|]. split; [exact H2|]. split; [destruct k; discriminate|]. split; [intros Q; apply K2; rewrite Q; left; auto|]. auto.
Qed.
Lemma entries_array p s i i0 k t r n rest : atl p (Z.of_nat i) i0 n rest -> y_map n = false -> last_sp p = Z.of_nat i ->
  good_e line_value same (ECons k t r) -> x_str2int E k (-1) = -1 -> c_dt (hp s (y_v n)) = TArray -> (5 <= y_v n)%nat ->
  run p s (lines_e i (ECons k t r)) = run p (Reset s (y_v n) TObject) (lines_e i (ECons k t r)).
Proof.
  intros AT YM LS (PK & GT & _) NUM DT L5. destruct (entry_body i k t PK GT) as (body & rs & v & Q & L2 & NE & H32 & H35 & H45 & NC & SK).
  rewrite Q. cbn [YamlThms.run]. destruct (Nat.ltb_spec (List.length (blanks i ++ body)) 2); [lia|].
  replace (pline p s (blanks i ++ body) (lead (blanks i ++ body))) with (pline p (Reset s (y_v n) TObject) (blanks i ++ body) (lead (blanks i ++ body))); [reflexivity|].
  rewrite !line_body by auto. destruct (Z.eqb_spec (hd 0 body) 45); [contradiction|]. rewrite (adj_at _ _ _ _ _ AT). f_equal.
  assert (DT' : c_dt (hp (Reset s (y_v n) TObject) (y_v n)) = TObject).
  { unfold Reset. rewrite (proj2 (ReadOnly_ge _) L5). cbn [set_cell hp]. rewrite upd_same. apply dt_reset. }
  unfold parseObject. cbn [stack set_stack first_el last_sp]. rewrite YM, andb_false_r, LS, Z.eqb_refl. cbv zeta. rewrite SK.
  destruct k as [|k0 k]; [destruct PK; congruence|]. cbn [negb andb]. rewrite !merge_plain by auto. cbn [bind].
  assert (SKC : forall t0 c, SetKeyCached E G (Reset s (y_v n) TObject) (y_v n) (k0 :: k) t0 c = SetKeyCached E G s (y_v n) (k0 :: k) t0 c).
  { intros t0 c. unfold SetKeyCached. rewrite DT, DT', NUM. change (vt_eqb TObject TArray) with false. change (vt_eqb TArray TArray) with true.
    change (vt_eqb TObject TObject) with true. change (vt_eqb TArray TObject) with false. change (-1 =? -1) with true. reflexivity. }
  rewrite !SKC. reflexivity.
Qed.
Lemma entries_array_err p s i i0 k t r n rest : atl p (Z.of_nat i) i0 n rest -> y_map n = false -> Z.of_nat i < last_sp p ->
  good_e line_value same (ECons k t r) -> c_dt (hp s (y_v n)) = TArray ->
  exists p' s', run p s (lines_e i (ECons k t r)) = Ok (Some ErrYaml, p', s').
Proof.
  intros AT YM LS (PK & GT & _) DT. destruct (entry_body i k t PK GT) as (body & rs & v & Q & L2 & NE & H32 & H35 & H45 & NC & SK).
  rewrite Q. cbn [YamlThms.run]. destruct (Nat.ltb_spec (List.length (blanks i ++ body)) 2); [lia|].
  rewrite !line_body by auto. destruct (Z.eqb_spec (hd 0 body) 45); [contradiction|]. rewrite (adj_at _ _ _ _ _ AT).
  unfold parseObject. cbn [stack set_stack first_el last_sp]. rewrite YM, andb_false_r. cbv zeta. rewrite SK.
  destruct k as [|k0 k]; [destruct PK; congruence|]. cbn [negb andb orb].
  destruct (Z.eqb_spec (last_sp p) (Z.of_nat i)); [lia|]. destruct (Z.ltb_spec (last_sp p) (Z.of_nat i)); [lia|].
  rewrite DT. change (vt_eqb TArray TObject) with false. cbn [negb orb bind]. eauto.
Qed.

(** ** The marker [---] *)
Lemma marker_line p s : last_sp p < 0 -> pline p s [45; 45; 45] (lead [45; 45; 45]) = pline p s [45; 32; 45; 45] (lead [45; 32; 45; 45]).
Proof.
  intros LS. change [45; 45; 45] with (blanks 0 ++ [45; 45; 45]). change [45; 32; 45; 45] with (blanks 0 ++ [45; 32; 45; 45]).
  assert (NC : forall b, ~ In 35 b -> no_comment b).
  { intros b H x y Q. apply H. rewrite Q. apply in_or_app. right. right. left. auto. }
  rewrite !line_body by (try discriminate; apply NC; cbv; intuition discriminate). cbn [hd tl]. change (45 =? 45) with true. cbv iota. f_equal.
  assert (LA : last_sp (adj p (Z.of_nat 0)) = last_sp p).
  { unfold adj. destruct (Z.of_nat 0 <? lsp p); [reflexivity|]. destruct (lsp p =? Z.of_nat 0); reflexivity. }
  unfold parseArray. rewrite LA. change (negb (45 =? 32)) with true. change (negb (32 =? 32)) with false.
  destruct (Z.leb_spec (Z.of_nat 0) (last_sp p)); [lia|]. reflexivity.
Qed.
Lemma marker_late p s : 0 <= last_sp p -> exists p1 s1, pline p s [45; 45; 45] (lead [45; 45; 45]) = Ok (Some ErrYaml, p1, s1).
Proof.
  intros LS. change [45; 45; 45] with (blanks 0 ++ [45; 45; 45]).
  assert (NC : forall b, ~ In 35 b -> no_comment b).
  { intros b H x y Q. apply H. rewrite Q. apply in_or_app. right. right. left. auto. }
  rewrite !line_body by (try discriminate; apply NC; cbv; intuition discriminate). cbn [hd tl]. change (45 =? 45) with true. cbv iota.
  assert (LA : last_sp (adj p (Z.of_nat 0)) = last_sp p).
  { unfold adj. destruct (Z.of_nat 0 <? lsp p); [reflexivity|]. destruct (lsp p =? Z.of_nat 0); reflexivity. }
  unfold parseArray. rewrite LA. change (negb (45 =? 32)) with true.
  destruct (Z.leb_spec (Z.of_nat 0) (last_sp p)); [|lia]. cbn [andb bind]. eauto.
Qed.

(** ** Lines below a scalar *)
(** A deeper line turns whatever is there into an object. *)
Lemma over_reset p s z n rest line k v b : stack p = n :: rest -> y_map n = false -> last_sp p < z -> splitKv line = (k, v, b) -> k <> [] ->
  c_dt (hp s (y_v n)) <> TObject -> (5 <= y_v n)%nat ->
  parseObject E G pick cf p s line z = parseObject E G pick cf p (Reset s (y_v n) TObject) line z.
Proof.
  intros ST YM LS SK NK DT L5.
  assert (DT' : c_dt (hp (Reset s (y_v n) TObject) (y_v n)) = TObject).
  { unfold Reset. rewrite (proj2 (ReadOnly_ge _) L5). cbn [set_cell hp]. rewrite upd_same. apply dt_reset. }
  unfold parseObject. rewrite ST, YM, andb_false_r. cbv zeta. rewrite SK. destruct k as [|k0 k]; [congruence|]. cbn [andb].
  destruct (Z.eqb_spec (last_sp p) z); [lia|]. destruct (Z.ltb_spec (last_sp p) z); [|lia].
  rewrite DT'. change (vt_eqb TObject TObject) with true. cbv iota.
  destruct (vt_eqb (c_dt (hp s (y_v n))) TObject) eqn:VT; [apply HeapBase.vt_eqb_eq in VT; congruence|]. reflexivity.
Qed.
Lemma obj_text p s z n rest t : stack p = n :: rest -> y_map n = false -> last_sp p < z -> c_dt (hp s (y_v n)) = TObject ->
  splitKv t = (t, [], false) -> t <> [] -> t <> b_merge ->
  parseObject E G pick cf p s t z =
    (do (x, s1) <- SetKeyCached E G s (y_v n) t TObject (y_cache p);
     Ok (None, push_node (set_first p false) (mkNode false z x), s1)).
Proof.
  intros ST YM LS DT SK NK NM. unfold parseObject. rewrite ST, YM, andb_false_r. cbv zeta. rewrite SK. destruct t as [|k0 k]; [congruence|]. cbn [andb].
  destruct (Z.eqb_spec (last_sp p) z); [lia|]. destruct (Z.ltb_spec (last_sp p) z); [|lia].
  rewrite DT. change (vt_eqb TObject TObject) with true. cbv iota. unfold mergeObj.
  destruct (beq (k0 :: k) b_merge) eqn:B; [apply beq_eq in B; congruence|]. cbn [bind]. unfold sub_value.
  change (y_cache (set_first p false)) with (y_cache p).
  destruct (SetKeyCached E G s (y_v n) (k0 :: k) TObject (y_cache p)) as [[x s1]| | |]; reflexivity.
Qed.

(** ** The last line *)
Definition last_line (ls : list bytes) (j : nat) : Prop := exists a body, ls = a ++ [blanks j ++ body] /\ body <> [] /\ hd 0 body <> 32 /\ hd 0 body <> 35 /\
  no_comment body /\ (2 <= List.length (blanks j ++ body))%nat.
Lemma last_app a b j : last_line b j -> last_line (a ++ b) j.
Proof. intros (x & body & -> & H). exists (a ++ x), body. rewrite app_assoc. auto. Qed.
Lemma last_cons a b j : last_line b j -> last_line (a :: b) j.
Proof. apply (last_app [a]). Qed.
Lemma last_key i k w : plain_key k -> no_comment (k ++ 58 :: w) -> last_line [blanks i ++ k ++ 58 :: w] i.
Proof.
  intros PK NC. pose proof PK as (K1 & [K2 K2'] & _ & _ & _ & K5 & K6 & _). exists [], (k ++ 58 :: w). split; [reflexivity|].
  split; [destruct k; discriminate|]. rewrite hd_app by auto. split; [intros Q; apply K2; rewrite Q; left; auto|]. split; [exact K5|]. split; [exact NC|].
  destruct k; [congruence|]. rewrite !app_length. cbn [List.length]. unfold bytes in *. lia.
Qed.
Lemma last_item i v : v <> [] -> no_comment v -> hd 0 v <> 35 -> last_line [item_line i v] i.
Proof.
  intros NE NC H. exists [], ([45; 32] ++ v). split; [reflexivity|]. split; [discriminate|]. split; [discriminate|]. split; [discriminate|].
  split; [apply no_comment_cons; [discriminate|apply no_comment_sp; auto]|apply (item_len G i v)].
Qed.
Lemma last_lines :
  (forall t, good_t line_value same t -> forall i k, plain_key k -> exists j, (i <= j)%nat /\ last_line (lines_t i k t) j) /\
  (forall es, good_e line_value same es -> es <> ENil -> forall i, exists j, (i <= j)%nat /\ last_line (lines_e i es) j) /\
  (forall l, good_i line_value same l -> l <> INil -> forall i, exists j, (if ends_flat l then j = i else i < j)%nat /\ last_line (lines_i i l) j).
Proof.
  apply ytree_mut.
  - intros v GT i k PK. exists i. split; [lia|]. apply last_key; auto. apply no_comment_kv; auto.
  - intros d es IH [GE DE] i k PK. change (lines_t i k (YM d es)) with (key_line i k :: lines_e (i + S d) es). destruct es as [|k' t r].
    + exists i. split; [lia|]. apply last_key; auto. apply no_comment_key; auto.
    + destruct (IH GE ltac:(discriminate) (i + S d)%nat) as (j & LE & LL). exists j. split; [lia|]. apply last_cons. exact LL.
  - intros d l IH [NE GI] i k PK. change (lines_t i k (YL d l)) with (key_line i k :: lines_i (i + S d) l).
    destruct (IH GI NE (i + S d)%nat) as (j & LE & LL). exists j. split; [destruct (ends_flat l); lia|]. apply last_cons. exact LL.
  - congruence.
  - intros k t IHt r IHr (PK & GT & GR) _ i. change (lines_e i (ECons k t r)) with (lines_t i k t ++ lines_e i r). destruct r as [|k' t' r].
    + cbn [lines_e]. rewrite app_nil_r. apply IHt; auto.
    + destruct (IHr GR ltac:(discriminate) i) as (j & LE & LL). exists j. split; [lia|]. apply last_app. exact LL.
  - congruence.
  - intros v r IHr (PV & NC & GR) _ i. change (lines_i i (IVal v r)) with (item_line i v :: lines_i i r).
    change (ends_flat (IVal v r)) with (ends_flat r). destruct r as [|v' r|k v' es r].
    + exists i. split; [reflexivity|]. destruct PV as (V1 & V2 & V3 & V4 & V5 & V6 & V7). apply last_item; auto.
    + destruct (IHr GR ltac:(discriminate) i) as (j & LE & LL). exists j. split; [exact LE|]. apply last_cons. exact LL.
    + destruct (IHr GR ltac:(discriminate) i) as (j & LE & LL). exists j. split; [exact LE|]. apply last_cons. exact LL.
  - intros k v es IHe r IHr (PK & PV & GE & DE & GR) _ i.
    change (lines_i i (IMap k v es r)) with (item_line i (k ++ [58; 32] ++ v) :: lines_e (i + 2) es ++ lines_i i r).
    assert (H : r <> INil -> ends_flat (IMap k v es r) = ends_flat r) by (destruct r; [congruence|reflexivity|reflexivity]).
    destruct (match r with INil => true | _ => false end) eqn:QR.
    + destruct r; try discriminate. cbn [lines_i]. rewrite app_nil_r. cbn [ends_flat]. destruct es as [|k' t r'].
      * exists i. split; [reflexivity|]. pose proof PK as (K1 & _ & _ & _ & _ & K5 & _). apply last_item; [destruct k; discriminate|apply no_comment_kv; auto|rewrite hd_app; auto].
      * destruct (IHe GE ltac:(discriminate) (i + 2)%nat) as (j & LE & LL). exists j. cbn [some_e negb]. split; [lia|]. apply last_cons. exact LL.
    + assert (NR : r <> INil) by (intros ->; discriminate). rewrite (H NR). destruct (IHr GR NR i) as (j & LE & LL). exists j. split; [exact LE|].
      apply last_cons, last_app. exact LL.
Qed.
Lemma run_last_line p s ls j p1 s1 : last_line ls j -> run p s ls = Ok (None, p1, s1) -> last_sp p1 = Z.of_nat j.
Proof. intros (a & body & -> & NE & H32 & H35 & NC & L2). apply run_last; auto. Qed.

(** ** A list, then a mapping *)
Lemma at_start p i r : stack p = [mkNode false (-1) r] -> last_sp p = -1 -> atl p (Z.of_nat i) (Z.of_nat i) (mkNode false (-1) r) [].
Proof.
  intros ST LS. exists []. split; [exact ST|]. split; [cbn [y_sp]; lia|]. split; [constructor|]. unfold lsp. rewrite ST. cbn [y_map y_sp]. rewrite andb_false_r. exact LS.
Qed.
Lemma list_steps p s c r i l : at_root p s c r KArr -> l <> INil -> good_i line_value same l ->
  exists j p' s' D', (if ends_flat l then j = i else i < j)%nat /\ run p s (lines_i i l) = Ok (None, p', s') /\ chg s c (fun z => z = r) s' D' /\
    own (hp s') r (VArray (val_i (loaded E) l)) D' /\ last_sp p' = Z.of_nat j /\ atl p' (Z.of_nat i) (Z.of_nat i) (mkNode false (-1) r) [] /\ kept p p'.
Proof.
  intros (ST & LS & YC & W & OC & L & R5 & O) NE GI.
  destruct (proj2 (proj2 (tree_ok E G pick cf)) l p s c (fun z => z = r) i (mkNode false (-1) r) [] [] (at_start _ _ _ ST LS) YC W OC ltac:(intros z ->; auto) O GI)
    as (p' & s' & D' & H & C & O' & AT & KP).
  destruct (proj2 (proj2 last_lines) l GI NE i) as (j & LE & LL). exists j, p', s', D'. split; [exact LE|]. split; [exact H|]. split; [exact C|].
  split; [exact O'|]. split; [exact (run_last_line _ _ _ _ _ _ LL H)|]. split; [exact AT|exact KP].
Qed.

(** An object or array that is reset is empty. *)
Lemma reset_empty s c (D : nat_set) l k : wf s -> good s D -> D l -> k <> KNull ->
  chg s c D (Reset s l (vt_of k)) (fun z => z = l) /\ own (hp (Reset s l (vt_of k))) l (empty_of k) (fun z => z = l).
Proof.
  intros W GD DL NK. destruct (GD l DL) as [L5 LL]. pose proof (chg_reset G s c D l (vt_of k) W GD DL) as CR. revert CR.
  unfold Reset. rewrite (proj2 (ReadOnly_ge _) L5). intros CR. split.
  - apply (chg_sub _ _ _ _ _ _ CR). intros z ->. exact DL.
  - apply own_empty; auto. cbn [set_cell hp]. rewrite upd_same. apply clean_reset.
Qed.
Lemma list_map_into i l k t r : l <> INil -> good_i line_value same l -> ends_flat l = true -> let es := ECons k t r in
  good_e line_value same es -> distinct same (keys_e es) -> x_str2int E k (-1) = -1 ->
  into E G pick cf (lines_i i l ++ lines_e i es) KArr (VObject true (val_e (loaded E) es)).
Proof.
  intros NE GI EF es GE DE NUM p s c r0 AR. destruct (list_steps p s c r0 i l AR NE GI) as (j & p1 & s1 & D1 & LE & H & C & O & LS & AT & KP).
  rewrite EF in LE. subst j. destruct AR as (_ & _ & YC & W & OC & L & R5 & O0).
  assert (DR : D1 r0) by (inversion O as [? ? ? X| |]; subst; [destruct X|assumption]).
  assert (DT : c_dt (hp s1 r0) = TArray) by (inversion O as [? ? ? X| |]; subst; [destruct X|assumption]).
  assert (W1 : wf s1) by apply C. pose proof (chg_good _ _ _ _ _ C) as G1.
  assert (OC1 : ok_cache N s1 c) by (refine (chg_cache _ _ _ _ _ C W _ OC); intros z ->; auto).
  destruct (reset_empty s1 c D1 r0 KObj W1 G1 DR ltac:(discriminate)) as [CR OR]. set (s2 := Reset s1 r0 (vt_of KObj)) in *.
  destruct (proj1 (proj2 (tree_ok E G pick cf)) es p1 s2 c (fun z => z = r0) i (Z.of_nat i) (mkNode false (-1) r0) [] false [] AT ltac:(lia)
    (eq_trans (proj1 KP) YC) (ch_wf _ _ _ _ _ CR) (chg_cache _ _ _ _ _ CR W1 G1 OC1) (chg_good _ _ _ _ _ CR) OR (or_intror eq_refl) GE DE)
    as (p3 & s3 & D3 & H3 & C3 & O3 & _ & KP3).
  exists p3, s3, D3. split.
  - rewrite (run_then E G pick cf _ _ _ _ _ _ H). subst es. rewrite (entries_array p1 s1 i (Z.of_nat i) k t r _ _ AT eq_refl LS GE NUM DT R5). exact H3.
  - split; [exact (chg_trans _ _ _ _ _ _ _ W C (chg_trans _ _ _ _ _ _ _ W1 CR C3))|]. split; [exact O3|].
    destruct KP as (_ & KP & _), KP3 as (_ & KP3 & _). congruence.
Qed.
Lemma list_map_fails i l k t r : l <> INil -> good_i line_value same l -> ends_flat l = false -> good_e line_value same (ECons k t r) ->
  fails E G pick cf (lines_i i l ++ lines_e i (ECons k t r)) KArr.
Proof.
  intros NE GI EF GE p s c r0 AR. destruct (list_steps p s c r0 i l AR NE GI) as (j & p1 & s1 & D1 & LE & H & C & O & LS & AT & KP).
  rewrite EF in LE. assert (DT : c_dt (hp s1 r0) = TArray) by (inversion O as [? ? ? X| |]; subst; [destruct X|assumption]).
  rewrite (run_then E G pick cf _ _ _ _ _ _ H). apply (entries_array_err p1 s1 i (Z.of_nat i) k t r _ _ AT eq_refl ltac:(lia) GE DT).
Qed.

(** ** The marker before any document *)
Lemma marker_run p s ls : last_sp p < 0 -> run p s ([45; 45; 45] :: ls) = run p s ([45; 32; 45; 45] :: ls).
Proof.
  intros LS. cbn [YamlThms.run List.length]. change (3 <? 2)%nat with false. change (4 <? 2)%nat with false. cbv iota.
  rewrite marker_line by auto. reflexivity.
Qed.
Lemma marker_parse m p s ls : Forall no_newline ls -> (S (List.length ls) <= m)%nat ->
  yparse E G pick cf m p s (doc ([45; 45; 45] :: ls)) = yparse E G pick cf m p s (doc ([45; 32; 45; 45] :: ls)).
Proof.
  intros F LE. assert (X : forall a : bytes, a <> [] -> doc (a :: ls) <> []).
  { intros a NA. cbn [doc]. destruct ls; [exact NA|]. destruct a; discriminate. }
  assert (NN : forall a, ~ In 10 a -> Forall no_newline (a :: ls)) by (intros a A; constructor; auto).
  rewrite !parse_run; try discriminate; try (apply X; discriminate); try (apply NN; cbv; intuition discriminate); auto.
  rewrite marker_run by reflexivity. destruct ls; reflexivity.
Qed.
Lemma marker_new m p s ls use : Forall no_newline ls -> (S (List.length ls) <= m)%nat ->
  NewValueFromYaml E G pick cf m p s (doc ([45; 45; 45] :: ls)) use = NewValueFromYaml E G pick cf m p s (doc ([45; 32; 45; 45] :: ls)) use.
Proof. intros F LE. unfold NewValueFromYaml. rewrite marker_parse by auto. reflexivity. Qed.
Lemma marker_load m p s l ls : Forall no_newline ls -> (S (List.length ls) <= m)%nat ->
  LoadFromYaml E G pick cf m p s l (doc ([45; 45; 45] :: ls)) = LoadFromYaml E G pick cf m p s l (doc ([45; 32; 45; 45] :: ls)).
Proof.
  intros F LE. unfold LoadFromYaml. destruct (Clear s l) as [s1| | |]; try reflexivity. cbn [bind].
  assert (X : forall b, exists c, doc ((45 :: b) :: ls) = 45 :: c) by (intros b; cbn [doc]; destruct ls; eexists; reflexivity).
  destruct (X [45; 45]) as (c1 & Q1). destruct (X [32; 45; 45]) as (c2 & Q2).
  assert (DW : forall c, drop_ws (45 :: c) = 45 :: c) by reflexivity. rewrite Q1, Q2, !DW, <- Q1, <- Q2. rewrite marker_parse by auto. reflexivity.
Qed.

(** ** Text below a scalar *)
Lemma loaded_dt h x v D : own h x (loaded E v) D -> c_dt (h x) <> TObject.
Proof.
  intros O Q. assert (K : loaded E v = VTrue \/ loaded E v = VFalse \/ (exists f, loaded E v = VDouble f) \/ exists b, loaded E v = VString b).
  { unfold loaded, scalar. destruct (beq v [116; 114; 117; 101]); [auto|]. destruct (beq v [102; 97; 108; 115; 101]); [auto|].
    destruct (x_parsefloat E v); eauto. }
  pose proof (own_kind _ _ _ _ KObj O) as KD. rewrite Q in KD. change (vt_eqb TObject (vt_of KObj)) with true in KD.
  destruct K as [K|[K|[(f & K)|(b & K)]]]; rewrite K in KD; discriminate.
Qed.
Lemma entry_over p s c (D : nat_set) i i0 n rest u kvs k v : atl p (Z.of_nat i) i0 n rest -> y_cache p = c -> wf s -> ok_cache N s c ->
  good s D -> own (hp s) (y_v n) (VObject u kvs) D -> (u = true \/ kvs = []) -> find_key E kvs k = None -> plain_key k -> line_value v ->
  exists x p' s', pline p s (flat_line i (k, v)) (lead (flat_line i (k, v))) = Ok (None, p', s') /\
    stack p' = mkNode false (Z.of_nat i) x :: n :: rest /\ last_sp p' = Z.of_nat i /\ kept p p' /\ (5 <= x)%nat /\ c_dt (hp s' x) <> TObject /\
    let s2 := Reset s' x TObject in wf s2 /\ live s2 x /\ ok_cache N s2 c /\ own (hp s2) x (VObject false []) (fun z => z = x) /\
    forall s3 (D1 : nat_set) w, chg s2 c (fun z => z = x) s3 D1 -> own (hp s3) x w D1 ->
      exists D', chg s c D s3 D' /\ own (hp s3) (y_v n) (VObject true (kvs ++ [(k, w)])) D'.
Proof.
  intros AT YC W OC GD O UK FK PK PV. unfold flat_line. cbn [fst snd].
  pose proof PK as (K1 & [K2 K2'] & _ & _ & _ & K5 & K6 & _).
  assert (HD : hd 0 (k ++ [58; 32] ++ v) = hd 0 k) by (apply hd_app; auto).
  rewrite line_body; [|destruct k; [congruence|discriminate]|rewrite HD; intros Q; apply K2; rewrite Q; left; auto|congruence|apply no_comment_kv; auto].
  rewrite HD. destruct (Z.eqb_spec (hd 0 k) 45); [contradiction|]. rewrite (adj_at _ _ _ _ _ AT).
  assert (DT : c_dt (hp s (y_v n)) = TObject) by (inversion O as [? ? ? L| |]; subst; [destruct L|auto]).
  rewrite (obj_scalar E G pick cf _ s _ n rest _ k v); auto; [|apply split_kv_text; [auto|apply PV|apply PV]]. cbn [y_cache set_stack]. rewrite YC.
  destruct (slot_key E G s c D (y_v n) u kvs k TString W OC GD O UK FK) as (x & s0 & H1 & SN). rewrite H1. cbn [bind].
  destruct (fill_new _ _ _ _ _ _ _ _ W SN) as (W0 & X5 & XL & CL & OC0 & FILL). specialize (OC0 OC GD).
  destruct (psv_line E G cf (set_first (set_stack p (n :: rest)) false) s0 c x v PV W0 XL X5 CL) as (s' & H2 & C1 & O1).
  rewrite H2. cbn [bind]. exists x. eexists _, s'. split; [reflexivity|]. split; [reflexivity|]. split; [reflexivity|]. split; [repeat split|].
  split; [exact X5|]. split; [exact (loaded_dt _ _ _ _ O1)|]. cbv zeta.
  assert (W1 : wf s') by apply C1. pose proof (chg_good _ _ _ _ _ C1) as G1.
  assert (OC1 : ok_cache N s' c) by (refine (chg_cache _ _ _ _ _ C1 W0 _ OC0); intros z ->; auto).
  destruct (reset_empty s' c (fun z => z = x) x KObj W1 G1 eq_refl ltac:(discriminate)) as [CR OR]. cbn [vt_of empty_of] in *.
  split; [apply CR|]. split; [exact (ch_lives _ _ _ _ _ CR _ (proj2 (G1 x eq_refl)))|]. split; [exact (chg_cache _ _ _ _ _ CR W1 G1 OC1)|]. split; [exact OR|].
  intros s3 D3 w C3 O3. apply (FILL s3 D3 w); [|exact O3]. exact (chg_trans _ _ _ _ _ _ _ W0 C1 (chg_trans _ _ _ _ _ _ _ W1 CR C3)).
Qed.

(** Lines that add one entry to a mapping, and lines that are an error there. *)
Definition in_map p s c (D : nat_set) i n rest u kvs k : Prop := atl p (Z.of_nat i) (Z.of_nat i) n rest /\ y_cache p = c /\ wf s /\ ok_cache N s c /\
  good s D /\ own (hp s) (y_v n) (VObject u kvs) D /\ (u = true \/ kvs = []) /\ find_key E kvs k = None.
Definition entry i (mid : list bytes) k w : Prop := forall p s c (D : nat_set) n rest u kvs, in_map p s c D i n rest u kvs k ->
  steps E G pick cf p s c D mid (y_v n) (VObject true (kvs ++ [(k, w)])) (fun p' => atl p' (Z.of_nat i) (Z.of_nat i) n rest).
Definition entry_err i (mid : list bytes) k : Prop := forall p s c (D : nat_set) n rest u kvs, in_map p s c D i n rest u kvs k ->
  exists p' s', run p s mid = Ok (Some ErrYaml, p', s').
Lemma map_first p s c r i es k r2 : at_root p s c r KObj -> good_e line_value same es -> distinct same (keys_e es ++ k :: r2) ->
  exists p1 s1 D1, run p s (lines_e i es) = Ok (None, p1, s1) /\ chg s c (fun z => z = r) s1 D1 /\ kept p p1 /\
    in_map p1 s1 c D1 i (mkNode false (-1) r) [] (some_e es) (val_e (loaded E) es) k.
Proof.
  intros (ST & LS & YC & W & OC & L & R5 & O) GE DE.
  assert (D1 : distinct same (keys_e es)).
  { clear - DE. unfold distinct in *. induction (keys_e es) as [|a l IH]; [constructor|]. cbn [app] in DE. inversion DE as [|? ? A B]; subst.
    constructor; [|auto]. apply Forall_app in A. apply A. }
  destruct (proj1 (proj2 (tree_ok E G pick cf)) es p s c (fun z => z = r) i (Z.of_nat i) (mkNode false (-1) r) [] false [] (at_start _ _ _ ST LS) ltac:(lia) YC W OC
      ltac:(intros z ->; auto) O (or_intror eq_refl) GE D1) as (p1 & s1 & D1' & H & C & O1 & AT & KP).
  exists p1, s1, D1'. split; [exact H|]. split; [exact C|]. split; [exact KP|]. split; [exact AT|]. split; [exact (eq_trans (proj1 KP) YC)|].
  split; [apply C|]. split; [refine (chg_cache _ _ _ _ _ C W _ OC); intros z ->; auto|]. split; [exact (chg_good _ _ _ _ _ C)|]. split; [exact O1|].
  split; [destruct es; [right; reflexivity|left; reflexivity]|]. apply (absent E _ _ r2). rewrite keys_val. exact DE.
Qed.
Lemma entry_into i es1 mid k w es2 : entry i mid k w -> good_e line_value same es1 -> good_e line_value same es2 ->
  distinct same (keys_e es1 ++ k :: keys_e es2) ->
  into E G pick cf (lines_e i es1 ++ mid ++ lines_e i es2) KObj (VObject true (val_e (loaded E) es1 ++ (k, w) :: val_e (loaded E) es2)).
Proof.
  intros EN G1 G2 DE p s c r AR. destruct (map_first p s c r i es1 k _ AR G1 DE) as (p1 & s1 & D1 & H1 & C1 & KP1 & IM).
  destruct (EN _ _ _ _ _ _ _ _ IM) as (p2 & s2 & D2 & H2 & C2 & O2 & AT2 & KP2). destruct IM as (_ & YC & W1 & OC1 & GD1 & _ & _ & _).
  destruct (proj1 (proj2 (tree_ok E G pick cf)) es2 p2 s2 c D2 i (Z.of_nat i) (mkNode false (-1) r) [] true _ AT2 ltac:(lia) (eq_trans (proj1 KP2) YC) (ch_wf _ _ _ _ _ C2)
     (chg_cache _ _ _ _ _ C2 W1 GD1 OC1) (chg_good _ _ _ _ _ C2) O2 (or_introl eq_refl) G2) as (p3 & s3 & D3 & H3 & C3 & O3 & _ & KP3).
  { rewrite map_app, keys_val, <- app_assoc. exact DE. }
  exists p3, s3, D3. split; [rewrite (run_then E G pick cf _ _ _ _ _ _ H1), (run_then E G pick cf _ _ _ _ _ _ H2); exact H3|].
  destruct AR as (_ & _ & _ & W & _). split; [exact (chg_trans _ _ _ _ _ _ _ W C1 (chg_trans _ _ _ _ _ _ _ W1 C2 C3))|].
  split; [rewrite <- app_assoc in O3; exact O3|]. destruct KP1 as (_ & Q1 & _), KP2 as (_ & Q2 & _), KP3 as (_ & Q3 & _). congruence.
Qed.
Lemma entry_fails i es1 mid k r : entry_err i mid k -> good_e line_value same es1 -> distinct same (keys_e es1 ++ [k]) ->
  fails E G pick cf (lines_e i es1 ++ mid ++ r) KObj.
Proof.
  intros EN G1 DE p s c r0 AR. destruct (map_first p s c r0 i es1 k _ AR G1 DE) as (p1 & s1 & D1 & H1 & C1 & KP1 & IM).
  destruct (EN _ _ _ _ _ _ _ _ IM) as (p2 & s2 & H2). exists p2, s2. rewrite (run_then E G pick cf _ _ _ _ _ _ H1), run_app, H2. reflexivity.
Qed.

(** A mapping below a scalar. *)
Lemma entry_map i k v d es : plain_key k -> line_value v -> es <> ENil -> good_e line_value same es -> distinct same (keys_e es) ->
  entry i (flat_line i (k, v) :: lines_e (i + S d) es) k (VObject true (val_e (loaded E) es)).
Proof.
  intros PK PV NE GE DE p s c D n rest u kvs (AT & YC & W & OC & GD & O & UK & FK).
  assert (NI : y_sp n < Z.of_nat i) by (destruct AT as (pre & _ & Q & _); exact Q).
  destruct (entry_over p s c D i _ n rest u kvs k v AT YC W OC GD O UK FK PK PV) as (x & p1 & s1 & H & ST & LS & KP & X5 & DX & W2 & L2 & OC2 & O2 & FILL).
  set (s2 := Reset s1 x TObject) in *.
  assert (AT1 : atl p1 (Z.of_nat (i + S d)) (Z.of_nat (i + S d)) (mkNode false (Z.of_nat i) x) (n :: rest)) by (apply at_opened; auto; lia).
  assert (RS : run p1 s1 (lines_e (i + S d) es) = run p1 s2 (lines_e (i + S d) es)).
  { destruct es as [|k' t r]; [congruence|]. destruct GE as (PK' & GT & _).
    destruct (entry_body (i + S d) k' t PK' GT) as (body & rs & v' & Q & LN & NB & H32 & H35 & H45 & NC & SK).
    rewrite Q. cbn [YamlThms.run]. destruct (Nat.ltb_spec (List.length (blanks (i + S d) ++ body)) 2); [lia|].
    rewrite !line_body by auto. destruct (Z.eqb_spec (hd 0 body) 45); [contradiction|]. rewrite (adj_at _ _ _ _ _ AT1).
    rewrite (over_reset (set_stack p1 (mkNode false (Z.of_nat i) x :: n :: rest)) s1 _ (mkNode false (Z.of_nat i) x) (n :: rest) body k' v' true); auto.
    - cbn [last_sp set_stack]. lia.
    - destruct PK' as (K & _). exact K. }
  destruct (proj1 (proj2 (tree_ok E G pick cf)) es p1 s2 c (fun z => z = x) (i + S d)%nat (Z.of_nat (i + S d)) (mkNode false (Z.of_nat i) x) (n :: rest) false []
     AT1 ltac:(lia) (eq_trans (proj1 KP) YC) W2 OC2 ltac:(intros z ->; auto) O2 (or_intror eq_refl) GE DE) as (p3 & s3 & D3 & H3 & C3 & O3 & AT3 & KP3).
  cbn [orb app y_v] in O3. destruct (FILL s3 D3 _ C3 O3) as (D4 & C4 & O4). exists p3, s3, D4.
  split; [rewrite (run_cons E G pick cf _ _ _ _ _ _ (flat_len G i k v PK) H), RS; exact H3|]. split; [exact C4|].
  split; [destruct es; [congruence|exact O4]|]. split; [|exact (kept_trans _ _ _ KP KP3)].
  eapply (at_lower p3 (Z.of_nat i) (Z.of_nat (i + S d))); eauto; lia.
Qed.
(** A line of text below a scalar. *)
Lemma split_text t : text_line t -> splitKv t = (t, [], false).
Proof.
  intros (L & T & _ & _ & N58 & _). unfold splitKv. rewrite trim_id by auto. rewrite index_byte_none by auto. reflexivity.
Qed.
Lemma text_step p s c (D : nat_set) i n rest u kvs k v d t : plain_key k -> line_value v -> text_line t -> in_map p s c D i n rest u kvs k ->
  exists y, steps E G pick cf p s c D [flat_line i (k, v); blanks (i + S d) ++ t] (y_v n) (VObject true (kvs ++ [(k, VObject true [(t, VObject false [])])]))
    (fun p' => atl p' (Z.of_nat i) (Z.of_nat i) n rest /\ last_sp p' = Z.of_nat (i + S d) /\
       exists x, stack p' = mkNode false (Z.of_nat (i + S d)) y :: mkNode false (Z.of_nat i) x :: n :: rest).
Proof.
  intros PK PV TL (AT & YC & W & OC & GD & O & UK & FK).
  assert (NI : y_sp n < Z.of_nat i) by (destruct AT as (pre & _ & Q & _); exact Q).
  destruct (entry_over p s c D i _ n rest u kvs k v AT YC W OC GD O UK FK PK PV) as (x & p1 & s1 & H & ST & LS & KP & X5 & DX & W2 & L2 & OC2 & O2 & FILL).
  set (s2 := Reset s1 x TObject) in *.
  assert (AT1 : atl p1 (Z.of_nat (i + S d)) (Z.of_nat (i + S d)) (mkNode false (Z.of_nat i) x) (n :: rest)) by (apply at_opened; auto; lia).
  pose proof (split_text t TL) as SK. destruct TL as (T2 & TT & TC & _ & _ & T35 & T45 & TM).
  assert (NT : t <> []) by (intros ->; cbn in T2; lia).
  assert (G2 : good s2 (fun z => z = x)) by (intros z ->; auto).
  destruct (slot_key E G s2 c (fun z => z = x) x false [] t TObject W2 OC2 G2 O2 (or_intror eq_refl) eq_refl) as (y & s3 & H3 & SN).
  destruct (fill_new _ _ _ _ _ _ _ _ W2 SN) as (W3 & Y5 & YL & CL & OC3 & FILL3).
  assert (C0 : chg s3 c (fun z => z = y) s3 (fun z => z = y)) by (apply chg_refl; [auto|intros z ->; auto]).
  destruct (FILL3 s3 _ (VObject false []) C0 (own_empty _ _ KObj _ CL eq_refl)) as (D3 & C3 & O3).
  destruct (FILL s3 D3 _ C3 O3) as (D4 & C4 & O4).
  exists y. eexists _, s3, D4. split.
  - rewrite (run_cons E G pick cf _ _ _ _ _ _ (flat_len G i k v PK) H). cbn [YamlThms.run].
    destruct (Nat.ltb_spec (List.length (blanks (i + S d) ++ t)) 2) as [Q|Q]; [rewrite app_length in Q; unfold bytes in *; lia|].
    rewrite line_body; auto; [|intros Q1; apply (proj1 TT); rewrite Q1; left; auto].
    destruct (Z.eqb_spec (hd 0 t) 45); [contradiction|]. rewrite (adj_at _ _ _ _ _ AT1).
    rewrite (over_reset (set_stack p1 (mkNode false (Z.of_nat i) x :: n :: rest)) s1 _ (mkNode false (Z.of_nat i) x) (n :: rest) t t [] false); auto;
      [|cbn [last_sp set_stack]; lia].
    cbn [y_v]. fold s2.
    rewrite (obj_text (set_stack p1 (mkNode false (Z.of_nat i) x :: n :: rest)) s2 _ (mkNode false (Z.of_nat i) x) (n :: rest)); auto;
      [|cbn [last_sp set_stack]; lia|inversion O2 as [? ? ? X| |]; subst; [destruct X|assumption]].
    cbn [y_v y_cache set_stack]. rewrite (proj1 KP), YC, H3. cbn [bind]. reflexivity.
  - split; [exact C4|]. split; [exact O4|]. split; [|destruct KP as (Q1 & Q2 & Q3); repeat split; assumption].
    split; [|split; [reflexivity|exists x; reflexivity]].
    exists [mkNode false (Z.of_nat (i + S d)) y; mkNode false (Z.of_nat i) x]. split; [reflexivity|]. split; [exact NI|].
    split; [repeat constructor; cbn [y_sp]; lia|]. unfold lsp. cbn [stack push_node set_stack set_last set_first y_map last_sp]. rewrite andb_false_r.
    split; [lia|repeat constructor; cbn [y_sp]; lia].
Qed.
Lemma entry_text i k v d t : plain_key k -> line_value v -> text_line t ->
  entry i [flat_line i (k, v); blanks (i + S d) ++ t] k (VObject true [(t, VObject false [])]).
Proof.
  intros PK PV TL p s c D n rest u kvs IM. destruct (text_step p s c D i n rest u kvs k v d t PK PV TL IM) as (y & p' & s' & D' & A & B & C & (F & _) & K).
  exists p', s', D'. auto 6.
Qed.
(** Two lines of text. *)
Lemma entry_texts i k v d t t' : plain_key k -> line_value v -> text_line t -> text_line t' ->
  entry_err i [flat_line i (k, v); blanks (i + S d) ++ t; blanks (i + S d) ++ t'] k.
Proof.
  intros PK PV TL TL' p s c D n rest u kvs IM. destruct (text_step p s c D i n rest u kvs k v d t PK PV TL IM) as (y & p' & s' & D' & A & B & C & (F & LS & x & ST) & K).
  change [flat_line i (k, v); blanks (i + S d) ++ t; blanks (i + S d) ++ t'] with ([flat_line i (k, v); blanks (i + S d) ++ t] ++ [blanks (i + S d) ++ t']).
  rewrite (run_then E G pick cf _ _ _ _ _ _ A). pose proof (split_text t' TL') as SK. destruct TL' as (T2 & TT & TC & _ & _ & T35 & T45 & TM).
  assert (NT : t' <> []) by (intros ->; cbn in T2; lia). cbn [YamlThms.run].
  destruct (Nat.ltb_spec (List.length (blanks (i + S d) ++ t')) 2) as [Q|Q]; [rewrite app_length in Q; unfold bytes in *; lia|].
  rewrite line_body; auto; [|intros Q1; apply (proj1 TT); rewrite Q1; left; auto].
  destruct (Z.eqb_spec (hd 0 t') 45); [contradiction|].
  assert (AJ : adj p' (Z.of_nat (i + S d)) = set_stack p' (mkNode false (Z.of_nat i) x :: n :: rest)).
  { unfold adj, lsp. rewrite ST. cbn [y_map]. rewrite andb_false_r, LS, Z.ltb_irrefl, Z.eqb_refl. reflexivity. }
  rewrite AJ. unfold parseObject. cbn [stack set_stack y_map]. rewrite andb_false_r. cbv zeta. cbn [last_sp set_stack]. rewrite SK, LS, Z.eqb_refl.
  destruct t' as [|c0 t']; [congruence|]. cbn [negb andb bind]. eauto.
Qed.

(** ** Markers behind the first line *)
Lemma dots_late p s : 0 <= last_sp p -> exists p1 s1, pline p s [46; 46; 46] (lead [46; 46; 46]) = Ok (Some ErrYaml, p1, s1).
Proof.
  intros LS. change [46; 46; 46] with (blanks 0 ++ [46; 46; 46]).
  assert (NC : forall b, ~ In 35 b -> no_comment b).
  { intros b H x y Q. apply H. rewrite Q. apply in_or_app. right. right. left. auto. }
  rewrite !line_body by (try discriminate; apply NC; cbv; intuition discriminate). cbn [hd tl]. change (46 =? 45) with false. cbv iota.
  assert (LA : last_sp (adj p (Z.of_nat 0)) = last_sp p).
  { unfold adj. destruct (Z.of_nat 0 <? lsp p); [reflexivity|]. destruct (lsp p =? Z.of_nat 0); reflexivity. }
  set (q := adj p (Z.of_nat 0)) in *. clearbody q. unfold parseObject.
  destruct (stack q) as [|n rest].
  - destruct (new_root G pick q s TObject) as [[p1 s1] r]. change (splitKv [46; 46; 46]) with ([46; 46; 46], @nil Z, false). cbn [andb negb bind]. eauto.
  - cbv zeta. change (splitKv [46; 46; 46]) with ([46; 46; 46], @nil Z, false). cbn [andb negb orb].
    set (z := if first_el q && y_map n then last_sp q + 2 else last_sp q). assert (Z0 : 0 <= z) by (subst z; destruct (first_el q && y_map n); lia).
    clearbody z. destruct (z =? Z.of_nat 0); [cbn [bind]; eauto|]. destruct (Z.ltb_spec z (Z.of_nat 0)); [lia|]. cbn [bind]. eauto.
Qed.
Lemma pline_same p s l n p1 s1 : pline p s l n = Ok (None, p1, s1) -> (p1 = p /\ s1 = s) \/ 0 <= last_sp p1.
Proof.
  unfold parseLine. destruct (skipn n l) as [|c d0]; [discriminate|]. destruct (c =? 35); [intros Q; injection Q as <- <-; auto|].
  match goal with |- match ?d with [] => _ | _ => _ end = _ -> _ => destruct d as [|c' d'] end; [intros Q; injection Q as <- <-; auto|]. cbv zeta.
  match goal with |- bind ?m _ = _ -> _ => destruct m as [[[e p2] s2]| | |]; try discriminate end.
  cbn [bind]. intros Q. injection Q as _ <- _. right. cbn [set_last last_sp]. lia.
Qed.
Lemma run_same ls : forall p s p1 s1, run p s ls = Ok (None, p1, s1) -> (p1 = p /\ s1 = s) \/ 0 <= last_sp p1.
Proof.
  induction ls as [|l ls IH]; intros p s p1 s1; cbn [YamlThms.run]; [intros Q; injection Q as <- <-; auto|].
  destruct (List.length l <? 2)%nat; [apply IH|].
  destruct (pline p s l (lead l)) as [[[[e|] p2] s2]| | |] eqn:PL; try discriminate. cbn [bind]. intros Q.
  destruct (IH _ _ _ _ Q) as [[-> ->]|H]; [|auto]. exact (pline_same _ _ _ _ _ _ PL).
Qed.
Lemma run_some ls p s p1 s1 : run p s ls = Ok (None, p1, s1) -> p1 = p \/ 0 <= last_sp p1.
Proof. intros Q. destruct (run_same _ _ _ _ _ Q) as [[H _]|H]; auto. Qed.
Lemma late_new m p s ls mark rest use r p1 s1 : y_root p = None -> Forall no_newline (ls ++ rest) -> (List.length ls + S (List.length rest) <= m)%nat ->
  mark = [45; 45; 45] \/ mark = [46; 46; 46] ->
  NewValueFromYaml E G pick cf m p s (doc ls) use = Ok (None, Some r, p1, s1) ->
  exists p' s', NewValueFromYaml E G pick cf m p s (doc (ls ++ mark :: rest)) use = Ok (Some ErrYaml, None, p', s').
Proof.
  intros RT F LE MK. apply Forall_app in F as [F1 F2]. unfold NewValueFromYaml. set (p0 := mkYp _ _ use _ _ _ _ _).
  assert (RT0 : y_root p0 = None) by exact RT. clearbody p0.
  destruct (beq (doc ls) []) eqn:DE.
  { apply beq_eq in DE. rewrite DE. cbn [yparse bind]. rewrite RT0. discriminate. }
  assert (ND : doc ls <> []) by (intros Q; rewrite Q in DE; discriminate).
  assert (NL : ls <> []) by (intros ->; apply ND; reflexivity).
  rewrite (parse_run E G pick cf ls) by (auto; lia).
  assert (H : (exists p2 s2, run (started p0) s ls = Ok (None, p2, s2) /\ y_root p2 = Some r) \/
    forall q, (do (e, p1, s1) <- (if (List.length (last ls []) =? 1)%nat then stuck (run (started p0) s ls) else run (started p0) s ls);
      Ok (e, match e with Some _ => None | None => y_root p1 end, yreset p1, s1)) <> Ok (None, Some r, q, s1)).
  { destruct (List.length (last ls []) =? 1)%nat; destruct (run (started p0) s ls) as [[[[e|] p2] s2]| | |]; cbn [stuck bind]; try (right; intros q; discriminate).
    destruct (y_root p2) as [r2|] eqn:Y; [|right; intros q; discriminate].
    destruct (Nat.eq_dec r2 r) as [->|NR]; [left; eauto|right; intros q Q; injection Q as Q1 _ _; congruence]. }
  destruct H as [(p2 & s2 & H & Y)|H]; [|intros Q; destruct (H _ Q)].
  intros _. assert (LS : 0 <= last_sp p2).
  { destruct (run_some _ _ _ _ _ H) as [->|K]; [|exact K]. change (y_root (started p0)) with (y_root p0) in Y. congruence. }
  assert (NN : ls ++ mark :: rest <> []) by (destruct ls; discriminate).
  assert (ML : (List.length mark <? 2)%nat = false) by (destruct MK as [->| ->]; reflexivity).
  assert (MN : no_newline mark) by (destruct MK as [->| ->]; cbv; intuition discriminate).
  rewrite (parse_run E G pick cf (ls ++ mark :: rest)).
  - assert (RR : exists p3 s3, run (started p0) s (ls ++ mark :: rest) = Ok (Some ErrYaml, p3, s3)).
    { rewrite (run_then E G pick cf _ _ _ _ _ _ H). cbn [YamlThms.run]. rewrite ML.
      assert (X : exists p3 s3, pline p2 s2 mark (lead mark) = Ok (Some ErrYaml, p3, s3)).
      { destruct MK as [->| ->]; [apply marker_late; auto|apply dots_late; auto]. }
      destruct X as (p3 & s3 & X). rewrite X. cbn [bind]. eauto. }
    destruct RR as (p3 & s3 & RR). rewrite RR. destruct (_ =? 1)%nat; cbn [stuck bind]; eauto.
  - exact NN.
  - destruct ls as [|l ls]; [congruence|]. cbn [app doc]. destruct (ls ++ mark :: rest) eqn:Q; [destruct ls; discriminate|]. destruct l; discriminate.
  - apply Forall_app. split; [exact F1|constructor; auto].
  - rewrite app_length. cbn [List.length]. lia.
Qed.
Lemma drop_ws_skip (w : bytes) c (r : bytes) : Forall (fun z => z = 32 \/ z = 13 \/ z = 10 \/ z = 9) w -> ~ (c = 32 \/ c = 13 \/ c = 10 \/ c = 9) ->
  drop_ws (w ++ c :: r) = c :: r.
Proof.
  intros W C. induction W as [|z w H W IH]; cbn [app drop_ws].
  - destruct (Z.eqb_spec c 32); [tauto|]. destruct (Z.eqb_spec c 13); [tauto|]. destruct (Z.eqb_spec c 10); [tauto|].
    destruct (Z.eqb_spec c 9); [tauto|]. reflexivity.
  - destruct H as [->|[->|[->| ->]]]; exact IH.
Qed.
Lemma doc_hd (l : bytes) (ls more : list bytes) : l <> [] -> exists r, doc ((l :: ls) ++ more) = hd 0 l :: r.
Proof. intros NL. destruct l as [|c l]; [congruence|]. cbn [app doc hd]. destruct (ls ++ more) as [|x y]; [exists l; reflexivity|exists (l ++ 10 :: doc (x :: y)); reflexivity]. Qed.
Lemma late_load m p s l w l1 ls mark rest p1 s1 : (5 <= l)%nat -> Forall no_newline ((l1 :: ls) ++ rest) -> (List.length (l1 :: ls) + S (List.length rest) <= m)%nat ->
  Forall (fun z => z = 32 \/ z = 13 \/ z = 10 \/ z = 9) w -> l1 <> [] -> ~ (hd 0 l1 = 32 \/ hd 0 l1 = 13 \/ hd 0 l1 = 10 \/ hd 0 l1 = 9) ->
  mark = [45; 45; 45] \/ mark = [46; 46; 46] ->
  LoadFromYaml E G pick cf m p s l (w ++ doc (l1 :: ls)) = Ok (None, p1, s1) ->
  ~ rep (hp s1) (Some l) (VObject false []) -> ~ rep (hp s1) (Some l) (VArray []) ->
  exists p' s', LoadFromYaml E G pick cf m p s l (w ++ doc ((l1 :: ls) ++ mark :: rest)) = Ok (Some ErrYaml, p', s').
Proof.
  intros L5 F LE WS NL NH MK. apply Forall_app in F as [F1 F2]. unfold LoadFromYaml.
  destruct (Clear s l) as [s0| | |]; try discriminate. cbn [bind].
  destruct (doc_hd l1 ls [] NL) as (r1 & D1). rewrite app_nil_r in D1. destruct (doc_hd l1 ls (mark :: rest) NL) as (r2 & D2).
  rewrite D1, D2, !drop_ws_skip by auto. rewrite <- D1, <- D2.
  set (t0 := if hd 0 l1 =? 45 then TArray else TObject). set (s2 := Reset s0 l t0). set (p0 := mkYp _ _ false _ _ _ _ _). clearbody p0.
  rewrite (parse_run E G pick cf (l1 :: ls)); [|discriminate|rewrite D1; discriminate|exact F1|lia].
  intros Q R1 R2.
  assert (H : exists p2, run (started p0) s2 (l1 :: ls) = Ok (None, p2, s1)).
  { destruct (List.length (last (l1 :: ls) []) =? 1)%nat; destruct (run (started p0) s2 (l1 :: ls)) as [[[[e|] p2] s3]| | |]; cbn [stuck bind] in Q; try discriminate.
    injection Q as _ <-. eauto. }
  destruct H as (p2 & H). assert (LS : 0 <= last_sp p2).
  { destruct (run_same _ _ _ _ _ H) as [[_ ->]|K]; [exfalso|exact K]. subst s2. revert R1 R2. unfold Reset. rewrite (proj2 (ReadOnly_ge _) L5). cbn [set_cell hp]. intros R1 R2.
    subst t0. destruct (hd 0 l1 =? 45).
    - apply R2. constructor; rewrite upd_same; [reflexivity|constructor].
    - apply R1. match goal with |- rep ?h (Some l) (VObject false []) => replace false with (c_unesc (h l)) by (rewrite upd_same; reflexivity) end.
      constructor; rewrite upd_same; [reflexivity|constructor]. }
  assert (ML : (List.length mark <? 2)%nat = false) by (destruct MK as [->| ->]; reflexivity).
  assert (MN : no_newline mark) by (destruct MK as [->| ->]; cbv; intuition discriminate).
  rewrite (parse_run E G pick cf ((l1 :: ls) ++ mark :: rest)).
  - assert (RR : exists p3 s3, run (started p0) s2 ((l1 :: ls) ++ mark :: rest) = Ok (Some ErrYaml, p3, s3)).
    { rewrite (run_then E G pick cf _ _ _ _ _ _ H). cbn [YamlThms.run]. rewrite ML.
      assert (X : exists p3 s3, pline p2 s1 mark (lead mark) = Ok (Some ErrYaml, p3, s3)).
      { destruct MK as [->| ->]; [apply marker_late; auto|apply dots_late; auto]. }
      destruct X as (p3 & s3 & X). rewrite X. cbn [bind]. eauto. }
    destruct RR as (p3 & s3 & RR). rewrite RR. cbn [stuck]. match goal with |- context[if ?b then _ else _] => destruct b end; cbn [bind]; eexists _, _; reflexivity.
  - discriminate.
  - rewrite D2. discriminate.
  - apply Forall_app. split; [exact F1|constructor; auto].
  - rewrite app_length. cbn [List.length] in *. lia.
Qed.
End Style.
