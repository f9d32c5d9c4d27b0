(** Nested mappings and lists. *)
From Verif Require Import Base Values Tactics HeapModel HeapSpec HeapBase HeapConf HeapGet ApiSpec HeapMap
  HeapCalls HeapObj HeapForce HeapClone HeapTyped BsonModel BsonLoadThms YamlModel YamlSpec YamlThms YamlFlat YamlTreeSpec.

(** ** The text of a line *)
Lemma split_key k : plain_key k -> splitKv (k ++ [58]) = (k, [], true).
Proof.
  intros (K1 & [K2 K2'] & _ & K3 & _). unfold splitKv. cbv zeta.
  assert (T : trim (k ++ [58]) = k ++ [58]).
  { apply trim_id. split.
    - rewrite hd_app by auto. exact K2.
    - rewrite last_last. intros [Q|[Q|[Q|[]]]]; discriminate. }
  rewrite T. rewrite index_byte_at by auto.
  replace (S (List.length k)) with (List.length (k ++ [58])) by (rewrite app_length; cbn; lia).
  rewrite skipn_all. rewrite firstn_app, firstn_all, Nat.sub_diag. cbn [firstn]. rewrite app_nil_r.
  rewrite trim_id by (split; auto). reflexivity.
Qed.
Lemma index_byte_none (b : bytes) c : ~ In c b -> index_byte b c = None.
Proof.
  induction b as [|x b IH]; intros N; cbn [index_byte]; [reflexivity|].
  destruct (Z.eqb_spec x c) as [->|]; [exfalso; apply N; left; auto|]. rewrite IH; [reflexivity|]. intros X; apply N; right; auto.
Qed.
Lemma split_val v : line_value v -> ~ In 58 v -> splitKv v = (v, [], false).
Proof.
  intros (_ & V & _) N. unfold splitKv. cbv zeta. rewrite (trim_id v V). rewrite index_byte_none by auto. reflexivity.
Qed.
Lemma trim_lead v : trimmed v -> trim (32 :: v) = v.
Proof.
  intros H. unfold trim. cbn [drop_sp]. change (is_sp 32) with true. cbv iota. exact (trim_id v H).
Qed.
Lemma no_comment_cons c b : c <> 32 -> no_comment b -> no_comment (c :: b).
Proof. intros C N x y Q. destruct x as [|a x]; cbn [app] in Q; [injection Q as -> Q; congruence|]. injection Q as _ Q. exact (N x y Q). Qed.
Lemma no_comment_sp b : hd 0 b <> 35 -> no_comment b -> no_comment (32 :: b).
Proof. intros C N x y Q. destruct x as [|a x]; cbn [app] in Q; [injection Q as Q; subst b; apply C; reflexivity|]. injection Q as _ Q. exact (N x y Q). Qed.
Lemma no_comment_kv k v : plain_key k -> line_value v -> no_comment (k ++ [58; 32] ++ v).
Proof.
  intros (K1 & [K2 K2'] & K3 & K4 & K5 & K7 & K8 & K9) (V1 & [V2 V2'] & V3 & V4 & V5 & V6 & V7).
  apply no_comment_app; auto.
  - cbn [app]. apply no_comment_cons; [discriminate|]. apply no_comment_sp; auto.
  - intros [Q _]. apply K2'. rewrite Q. left; auto.
Qed.
Lemma no_comment_key k : plain_key k -> no_comment (k ++ [58]).
Proof.
  intros (K1 & [K2 K2'] & K3 & _). apply no_comment_app; auto.
  - apply no_comment_cons; [discriminate|]. intros x y Q. destruct x; discriminate.
  - intros [_ Q]. discriminate.
Qed.
Lemma trimmed_kv k v : plain_key k -> line_value v -> trimmed (k ++ [58; 32] ++ v).
Proof.
  intros (K1 & [K2 K2'] & _) (V1 & [V2 V2'] & _). split.
  - rewrite hd_app by auto. exact K2.
  - rewrite last_app by discriminate. rewrite last_app by auto. exact V2'.
Qed.

(** ** The stack between the lines *)
Definition lsp (p : yp) : Z :=
  match stack p with
  | m :: _ => if first_el p && y_map m then last_sp p + 2 else last_sp p
  | [] => last_sp p
  end.
Definition adj (p : yp) (z : Z) : yp :=
  if z <? lsp p then set_stack p (unwind (popLast (stack p) 2) z)
  else if lsp p =? z then set_stack p (popLast (stack p) 1) else p.

(** Lines indented by [i] go into the node [n]; the nodes above it are indented at least by [i0]. *)
Definition atl (p : yp) (i i0 : Z) (n : ynode) (rest : list ynode) : Prop :=
  exists pre, stack p = pre ++ n :: rest /\ y_sp n < i /\ Forall (fun m => i0 <= y_sp m) pre /\
    match pre with
    | [] => lsp p = y_sp n
    | [_] => lsp p = i
    | _ => i < lsp p /\ Forall (fun m => i <= y_sp m) pre
    end.
Lemma unwind_to pre n rest z : Forall (fun m => z <= y_sp m) pre -> y_sp n < z -> unwind (pre ++ n :: rest) z = n :: rest.
Proof.
  induction 1 as [|m pre M F IH]; intros L; cbn [app].
  - cbn [unwind]. destruct rest; [reflexivity|]. destruct (Z.ltb_spec (y_sp n) z); [reflexivity|lia].
  - specialize (IH L). destruct pre as [|m' pre]; cbn [app] in *; cbn [unwind]; (destruct (Z.ltb_spec (y_sp m) z); [lia|exact IH]).
Qed.
Lemma stack_id p l : stack p = l -> p = set_stack p l.
Proof. intros <-. destruct p. reflexivity. Qed.
Lemma adj_at p i i0 n rest : atl p i i0 n rest -> adj p i = set_stack p (n :: rest).
Proof.
  intros (pre & ST & L & F & Q). unfold adj. destruct pre as [|a [|b pre]]; cbn [app] in *.
  - destruct (Z.ltb_spec i (lsp p)); [lia|]. destruct (Z.eqb_spec (lsp p) i); [lia|]. apply stack_id; auto.
  - destruct (Z.ltb_spec i (lsp p)); [lia|]. destruct (Z.eqb_spec (lsp p) i); [|lia]. rewrite ST. reflexivity.
  - destruct Q as [Q1 Q2]. destruct (Z.ltb_spec i (lsp p)); [|lia]. rewrite ST. cbn [popLast skipn].
    inversion Q2 as [|? ? _ Q3]; subst. inversion Q3 as [|? ? _ Q4]; subst. rewrite unwind_to; auto.
Qed.
Lemma at_pushed p i i0 x n rest : stack p = mkNode false i x :: n :: rest -> last_sp p = i -> y_sp n < i -> i0 <= i ->
  atl p i i0 n rest.
Proof.
  intros ST LS L LE. exists [mkNode false i x]. split; [exact ST|]. split; [exact L|]. split; [constructor; auto|].
  unfold lsp. rewrite ST. cbn [y_map]. rewrite andb_false_r. exact LS.
Qed.
Lemma at_opened p i j x rest : stack p = mkNode false i x :: rest -> last_sp p = i -> i < j ->
  atl p j j (mkNode false i x) rest.
Proof.
  intros ST LS L. exists []. split; [exact ST|]. split; [exact L|]. split; [constructor|].
  unfold lsp. rewrite ST. cbn [y_map]. rewrite andb_false_r. exact LS.
Qed.
Lemma at_lower p i j j0 i0 n0 n rest : atl p j j0 n0 (n :: rest) -> y_sp n0 = i -> i < j -> i <= j0 -> y_sp n < i -> i0 <= i ->
  atl p i i0 n rest.
Proof.
  intros (pre & ST & L & F & Q) N0 LJ LJ0 LN LI. exists (pre ++ [n0]). split; [rewrite ST, <- app_assoc; reflexivity|].
  split; [exact LN|].
  assert (FI : Forall (fun m => i <= y_sp m) (pre ++ [n0])).
  { apply Forall_app. split; [|constructor; [lia|constructor]]. eapply Forall_impl; [|exact F]. cbn. lia. }
  split; [eapply Forall_impl; [|exact FI]; cbn; lia|].
  destruct pre as [|a [|b pre]]; cbn [app] in *.
  - lia.
  - split; [lia|exact FI].
  - split; [lia|exact FI].
Qed.

Section Tree.
Variable E : env.
Variable G : nat -> nat.
Variable pick : st -> option nat.
Variable cf : nat.
Notation N := none_set.
Notation same := (key_match E).
Notation pline := (parseLine E G pick cf).
Notation run := (run E G pick cf).

(** ** One line *)
Lemma line_body p s n body : body <> [] -> hd 0 body <> 32 -> hd 0 body <> 35 -> no_comment body ->
  pline p s (blanks n ++ body) (lead (blanks n ++ body)) =
    (do (e, p2, s2) <- (if hd 0 body =? 45 then parseArray E G pick cf (adj p (Z.of_nat n)) s (tl body) (Z.of_nat n)
                        else parseObject E G pick cf (adj p (Z.of_nat n)) s body (Z.of_nat n));
     Ok (e, set_last p2 (Z.of_nat n), s2)).
Proof.
  intros NE N1 N2 NC. unfold parseLine. rewrite lead_blanks by auto. rewrite skip_blanks.
  pose proof (index_hash_none body NC) as IH. destruct body as [|c b]; [congruence|]. cbn [hd tl] in *.
  destruct (Z.eqb_spec c 35); [contradiction|]. rewrite IH. reflexivity.
Qed.

(** [parseObject] on an object: the same whatever the indentation of the line before. *)
Lemma obj_scalar p s z n rest line k v : stack p = n :: rest -> c_dt (hp s (y_v n)) = TObject -> splitKv line = (k, v, true) ->
  plain_key k -> line_value v ->
  parseObject E G pick cf p s line z =
    (do (x, s1) <- SetKeyCached E G s (y_v n) k TString (y_cache p);
     do (p2, s2) <- parseStringValue E G cf 1 (set_first p false) s1 x v;
     Ok (None, push_node p2 (mkNode false z x), s2)).
Proof.
  intros ST DT SK PK PV. unfold parseObject. rewrite ST. cbv zeta. rewrite SK.
  pose proof PK as (K1 & _). pose proof PV as (V1 & _ & _ & _ & V2 & V3 & _).
  destruct k as [|k0 k]; [congruence|]. cbn [andb negb]. rewrite !merge_plain by auto. cbn [bind].
  change (y_cache (set_first p false)) with (y_cache p). rewrite DT. change (vt_eqb TObject TObject) with true.
  unfold sub_value. destruct v as [|v0 v]; [congruence|]. cbn [hd] in V2, V3.
  destruct (Z.eqb_spec v0 38); [contradiction|]. destruct (Z.eqb_spec v0 42); [contradiction|]. cbn [negb orb].
  change (y_cache (set_first p false)) with (y_cache p).
  destruct ((if first_el p && y_map n then last_sp p + 2 else last_sp p) =? z).
  - destruct (SetKeyCached E G s (y_v n) (k0 :: k) TString (y_cache p)) as [[x s1]| | |]; try reflexivity. cbn [bind].
    destruct (parseStringValue E G cf 1 (set_first p false) s1 x (v0 :: v)) as [[p2 s2]| | |]; reflexivity.
  - destruct ((if first_el p && y_map n then last_sp p + 2 else last_sp p) <? z); [|reflexivity].
    destruct (SetKeyCached E G s (y_v n) (k0 :: k) TString (y_cache p)) as [[x s1]| | |]; try reflexivity. cbn [bind].
    destruct (parseStringValue E G cf 1 (set_first p false) s1 x (v0 :: v)) as [[p2 s2]| | |]; reflexivity.
Qed.
Lemma obj_key p s z n rest line k : stack p = n :: rest -> c_dt (hp s (y_v n)) = TObject -> splitKv line = (k, [], true) ->
  plain_key k ->
  parseObject E G pick cf p s line z =
    (do (x, s1) <- SetKeyCached E G s (y_v n) k TObject (y_cache p);
     Ok (None, push_node (set_first p false) (mkNode false z x), s1)).
Proof.
  intros ST DT SK PK. unfold parseObject. rewrite ST. cbv zeta. rewrite SK.
  pose proof PK as (K1 & _).
  destruct k as [|k0 k]; [congruence|]. cbn [andb negb orb]. rewrite !merge_plain by auto. cbn [bind].
  change (y_cache (set_first p false)) with (y_cache p). rewrite DT. change (vt_eqb TObject TObject) with true.
  unfold sub_value. change (y_cache (set_first p false)) with (y_cache p). cbn [negb].
  destruct ((if first_el p && y_map n then last_sp p + 2 else last_sp p) =? z);
    [|destruct ((if first_el p && y_map n then last_sp p + 2 else last_sp p) <? z)];
    destruct (SetKeyCached E G s (y_v n) (k0 :: k) TObject (y_cache p)) as [[x s1]| | |]; reflexivity.
Qed.

(** ** New elements *)
Definition slot_new (s : st) c (D : nat_set) (l : nat) (t : vtype) (put : value -> value) x (s0 : st) : Prop :=
  exists D0 : nat_set, chg s c D s0 D0 /\ D0 x /\ clean (hp s0 x) t /\
    forall h u (D1 : nat_set), own h x u D1 -> (forall z, D0 z -> z <> x -> h z = hp s0 z) -> (forall z, D1 z -> z = x \/ ~ D0 z) ->
      own h l (put u) (fun z => (D0 z /\ z <> x) \/ D1 z).
Lemma index_absent {A} u (kvs : list (bytes * A)) key : (u = true \/ kvs = []) -> find_key E kvs key = None ->
  index_by_name E u kvs key = (None, (true, kvs)).
Proof.
  intros [->| ->] FK; unfold index_by_name.
  - cbn [negb andb]. unfold unescape_keys. rewrite FK. reflexivity.
  - cbn [find_key]. unfold unescape_keys. cbn [map find_key]. destruct u; cbn [negb andb find_key]; [reflexivity|].
    destruct (no_backslash key); reflexivity.
Qed.
Lemma slot_key s c (D : nat_set) l u kvs key t : wf s -> ok_cache N s c -> good s D -> own (hp s) l (VObject u kvs) D ->
  (u = true \/ kvs = []) -> find_key E kvs key = None ->
  exists x s0, SetKeyCached E G s l key t c = Ok (x, s0) /\ slot_new s c D l t (fun w => VObject true (kvs ++ [(key, w)])) x s0.
Proof.
  intros W OC GD O UK FK. inversion O as [? ? ? L|x kvs0 D' DK DT KS OS DL ND SU|]; subst; [destruct L|].
  unfold SetKeyCached. rewrite DT. change (vt_eqb TObject TArray) with false. change (vt_eqb TObject TObject) with true.
  cbn [andb]. cbv zeta. unfold obj_index.
  rewrite index_absent; [|destruct UK as [UK| ->]; [auto|right; destruct (c_kvs (hp s l)); [auto|discriminate]]|rewrite (find_key_fst E _ kvs key KS); exact FK].
  cbn [fst snd].
  assert (C2 : chg s c D (set_cell s l (w_obj (hp s l) true (c_kvs (hp s l)) (c_spare (hp s l)))) D).
  { apply chg_set; auto. }
  set (s2 := set_cell s l _) in *. pose proof (ch_wf _ _ _ _ _ C2) as W2. pose proof (chg_good _ _ _ _ _ C2) as GD2.
  pose proof (chg_cache _ _ _ _ _ C2 W GD OC) as OC2.
  assert (HL : hp s2 l = w_obj (hp s l) true (c_kvs (hp s l)) (c_spare (hp s l))) by (subst s2; cbn [set_cell hp]; apply upd_same).
  assert (OS2 : owns (hp s2) (map snd (c_kvs (hp s l))) (map snd kvs) DK).
  { eapply owns_frame; [exact OS|]. intros z Z. subst s2. cbn [set_cell hp]. apply upd_other. intros ->. auto. }
  assert (HD : c_dt (hp s2 l) = TObject) by (rewrite HL; exact DT).
  assert (HU : c_unesc (hp s2 l) = true) by (rewrite HL; reflexivity).
  assert (HK : c_kvs (hp s2 l) = c_kvs (hp s l)) by (rewrite HL; reflexivity).
  clearbody s2. destruct (getValue G s2 c t) as [r s3] eqn:GV.
  destruct (chg_get G s2 c t r s3 D W2 OC2 GD2 GV) as (C3 & CL & NR & FR).
  pose proof (ch_wf _ _ _ _ _ C3) as W3. pose proof (chg_good _ _ _ _ _ C3) as GD3.
  destruct (GD2 l DL) as [L5 LL]. assert (HL3 : hp s3 l = hp s2 l) by (apply FR; auto).
  assert (NRl : r <> l) by (intros ->; auto).
  assert (C4 : chg s3 c (fun z => D z \/ z = r) (set_cell s3 l (push_kv G (hp s3 l) key (Some r))) (fun z => D z \/ z = r)).
  { apply chg_set; auto. intros P PC OK K. apply okc_push; auto. apply ok_ptr_some. apply K. auto. }
  exists r, (set_cell s3 l (push_kv G (hp s3 l) key (Some r))). split; [reflexivity|].
  exists (fun z => D z \/ z = r). split; [exact (chg_trans _ _ _ _ _ _ _ W C2 (chg_trans _ _ _ _ _ _ _ W2 C3 C4))|]. split; [auto|].
  split; [cbn [set_cell hp]; rewrite upd_other by auto; exact CL|].
  intros h u D1 OU F DI.
  assert (HH : h l = push_kv G (hp s2 l) key (Some r)).
  { rewrite F; auto. cbn [set_cell hp]. rewrite upd_same, HL3. reflexivity. }
  assert (PK : c_dt (h l) = TObject /\ c_unesc (h l) = true /\ c_kvs (h l) = c_kvs (hp s l) ++ [(key, Some r)]).
  { rewrite HH, <- HK, <- HU. unfold push_kv. destruct (c_spare (hp s2 l)); cbn [w_obj c_dt c_unesc c_kvs]; auto. }
  destruct PK as (P1 & P2 & P3). rewrite <- P2.
  assert (NDK : forall z, D1 z -> ~ DK z).
  { intros z Z K. destruct (DI z Z) as [->|Q]; [|apply Q; auto]. destruct (GD2 r (SU r K)). auto. }
  apply (own_obj h l _ _ (fun z => DK z \/ D1 z)); auto.
  - rewrite P3, !map_app, KS. reflexivity.
  - rewrite P3, !map_app. cbn [map snd]. apply owns_app; auto.
    eapply owns_frame; [exact OS2|]. intros z Z. destruct (GD2 z (SU z Z)) as [_ ZL].
    rewrite F; auto; [|intros ->; auto]. cbn [set_cell hp]. rewrite upd_other by (intros ->; auto). auto.
  - intros [K|K]; [auto|]. destruct (DI l K) as [Q|Q]; [congruence|]. apply Q; auto.
  - intros z [Z|Z]; [left; split; [auto|]|auto]. intros ->. destruct (GD2 r (SU r Z)). auto.
Qed.
Lemma slot_item s c (D : nat_set) l vs t : wf s -> ok_cache N s c -> good s D -> own (hp s) l (VArray vs) D ->
  exists x s0, SetIndexCached G s l (-1) t c = (x, s0) /\ slot_new s c D l t (fun w => VArray (vs ++ [w])) x s0.
Proof.
  intros W OC GD O. inversion O as [? ? ? L| |x vs0 D' DK DT OS DL ND SU]; subst; [destruct L|].
  unfold SetIndexCached. rewrite DT. change (vt_eqb TArray TArray) with true. cbv zeta. change (0 <=? -1) with false. cbn [andb].
  destruct (getValue G s c t) as [r s3] eqn:GV.
  destruct (chg_get G s c t r s3 D W OC GD GV) as (C3 & CL & NR & FR).
  pose proof (ch_wf _ _ _ _ _ C3) as W3. pose proof (chg_good _ _ _ _ _ C3) as GD3.
  destruct (GD l DL) as [L5 LL]. assert (HL3 : hp s3 l = hp s l) by (apply FR; auto).
  assert (NRl : r <> l) by (intros ->; auto).
  assert (C4 : chg s3 c (fun z => D z \/ z = r) (set_cell s3 l (w_arr (hp s3 l) (c_arr (hp s3 l) ++ [Some r]))) (fun z => D z \/ z = r)).
  { apply chg_set; auto. intros P PC OK K. apply okc_app; auto. apply ok_ptr_some. apply K. auto. }
  exists r, (set_cell s3 l (w_arr (hp s3 l) (c_arr (hp s3 l) ++ [Some r]))). split; [reflexivity|].
  exists (fun z => D z \/ z = r). split; [exact (chg_trans _ _ _ _ _ _ _ W C3 C4)|]. split; [auto|].
  split; [cbn [set_cell hp]; rewrite upd_other by auto; exact CL|].
  intros h u D1 OU F DI.
  assert (HH : h l = w_arr (hp s l) (c_arr (hp s l) ++ [Some r])).
  { rewrite F; auto. cbn [set_cell hp]. rewrite upd_same, HL3. reflexivity. }
  assert (NDK : forall z, D1 z -> ~ DK z).
  { intros z Z K. destruct (DI z Z) as [->|Q]; [|apply Q; auto]. destruct (GD r (SU r K)). auto. }
  apply (own_arr h l _ _ (fun z => DK z \/ D1 z)); auto.
  - rewrite HH. exact DT.
  - rewrite HH. cbn [w_arr c_arr]. apply owns_app; auto.
    eapply owns_frame; [exact OS|]. intros z Z. destruct (GD z (SU z Z)) as [_ ZL].
    rewrite F; auto; [|intros ->; auto]. cbn [set_cell hp]. rewrite upd_other by (intros ->; auto). auto.
  - intros [K|K]; [auto|]. destruct (DI l K) as [Q|Q]; [congruence|]. apply Q; auto.
  - intros z [Z|Z]; [left; split; [auto|]|auto]. intros ->. destruct (GD r (SU r Z)). auto.
Qed.
Lemma fill_new s c (D : nat_set) l t put x s0 : wf s -> slot_new s c D l t put x s0 ->
  wf s0 /\ (5 <= x)%nat /\ live s0 x /\ clean (hp s0 x) t /\ (ok_cache N s c -> good s D -> ok_cache N s0 c) /\
  forall s1 (D1 : nat_set) u, chg s0 c (fun z => z = x) s1 D1 -> own (hp s1) x u D1 ->
    exists D', chg s c D s1 D' /\ own (hp s1) l (put u) D'.
Proof.
  intros W (D0 & C0 & DX & CL & RB). pose proof (chg_good _ _ _ _ _ C0) as GD0. destruct (GD0 x DX) as [X5 XL].
  split; [apply C0|]. split; [exact X5|]. split; [exact XL|]. split; [exact CL|].
  split; [intros OC GD; exact (chg_cache _ _ _ _ _ C0 W GD OC)|].
  intros s1 D1 u C1 OU. exists (fun z => (D0 z /\ z <> x) \/ D1 z). split.
  - apply (chg_trans _ _ _ _ _ _ _ W C0). apply (chg_part s0 c D0 (fun z => z = x)); auto. intros z ->. exact DX.
  - apply RB; auto.
    + intros z Z NZ. apply (ch_frame _ _ _ _ _ C1); auto. apply GD0; auto.
    + intros z Z. destruct (ch_new _ _ _ _ _ C1 z Z) as (_ & _ & [Q|Q]); [auto|]. right. intros K. apply Q, GD0, K.
Qed.
(** A plain value in a new string cell. *)
Lemma psv_fin p s c x v : plain_value v -> wf s -> live s x -> (5 <= x)%nat -> c_dt (hp s x) = TString ->
  exists s', parseStringValue E G cf 1 p s x v = Ok (p, s') /\ BsonLoadThms.fin s c (fun z => z = x) x (scalar E v) s'.
Proof.
  intros (V1 & _ & _ & _ & V2 & V3 & _ & V4 & V5) W L X5 T.
  assert (RO : ReadOnly x = false) by (apply ReadOnly_ge; auto).
  assert (GD : good s (fun z => z = x)) by (intros z ->; auto).
  unfold scalar. cbn [parseStringValue]. change b_true with [116; 114; 117; 101]. change b_false with [102; 97; 108; 115; 101].
  destruct (beq v [116; 114; 117; 101]).
  { eexists. split; [reflexivity|]. unfold SetBool, Reset. rewrite RO. apply fin_set; auto; [apply okc_to_reset|exact I|].
    intros h H. split; [|discriminate]. constructor. rewrite H. apply dt_reset. }
  destruct (beq v [102; 97; 108; 115; 101]).
  { eexists. split; [reflexivity|]. unfold SetBool, Reset. rewrite RO. apply fin_set; auto; [apply okc_to_reset|exact I|].
    intros h H. split; [|discriminate]. constructor. rewrite H. apply dt_reset. }
  destruct (x_parsefloat E v) as [f|].
  { eexists. split; [reflexivity|]. unfold SetDouble, Reset. rewrite RO, T. change (is_dbl TString) with false. cbv zeta.
    cbn [set_cell hp]. rewrite upd_same. apply fin_set2; auto; [apply okc_to_reset|apply okc_to_sv|exact I|].
    intros h H. split; [|discriminate]. apply rep_dbl_of; rewrite H; reflexivity. }
  assert (STR : exists s', Ok (p, SetString s x v) = Ok (p, s') /\ BsonLoadThms.fin s c (fun z => z = x) x (VString v) s').
  { eexists. split; [reflexivity|]. unfold SetString, ensure. rewrite T. change (vt_eqb TString TString) with true. cbv zeta.
    apply fin_set; auto; [apply okc_to_str|exact I|].
    intros h H. split; [|discriminate]. apply rep_str_of; rewrite H; [exact T|reflexivity]. }
  destruct v as [|c0 v]; [congruence|]. cbv zeta. cbn [hd] in *. set (e := last (c0 :: v) 0) in *.
  destruct ((c0 =? 123) && (e =? 125)) eqn:B1.
  { apply andb_true_iff in B1 as [B1 B2]. apply Z.eqb_eq in B1, B2. exfalso; apply V4; auto. }
  destruct ((c0 =? 91) && (e =? 93)) eqn:B2.
  { apply andb_true_iff in B2 as [B2 B3]. apply Z.eqb_eq in B2, B3. exfalso; apply V5; auto. }
  destruct (Z.eqb_spec c0 38); [contradiction|]. destruct (Z.eqb_spec c0 42); [contradiction|]. exact STR.
Qed.
(** A value that is no anchor or alias, in a new string cell. *)
Lemma flow_plain v : line_value v -> flow v = false -> plain_value v.
Proof.
  intros (V1 & V2 & V3 & V4 & V5 & V6 & V7) FL. unfold flow in FL. apply orb_false_iff in FL as [F1 F2].
  repeat (split; [assumption|]). split; intros [A B]; rewrite A, B in *; discriminate.
Qed.
Lemma psv_line p s c x v : line_value v -> wf s -> live s x -> (5 <= x)%nat -> clean (hp s x) TString ->
  exists s', parseStringValue E G cf 1 p s x v = Ok (p, s') /\ BsonLoadThms.fin s c (fun z => z = x) x (loaded E v) s'.
Proof.
  intros LV W L X5 CL. pose proof CL as (T & _ & _ & _ & ST & _).
  destruct (flow v) eqn:FL.
  - assert (GD : good s (fun z => z = x)) by (intros z ->; auto).
    assert (NT : beq v b_true = false /\ beq v b_false = false).
    { split; apply Bool.not_true_is_false; intros Q; apply beq_eq in Q; subst v; discriminate. }
    assert (KEEP : BsonLoadThms.fin s c (fun z => z = x) x (VString []) s).
    { split; [apply chg_refl; auto|]. apply own_leaf; [exact I| |discriminate|reflexivity]. rewrite <- ST. apply rep_str. exact T. }
    destruct NT as [N1 N2]. unfold loaded, scalar. change b_true with [116; 114; 117; 101] in *. change b_false with [102; 97; 108; 115; 101] in *.
    rewrite N1, N2, FL. cbn [parseStringValue]. change b_true with [116; 114; 117; 101]. change b_false with [102; 97; 108; 115; 101]. rewrite N1, N2.
    destruct (x_parsefloat E v) as [f|].
    { eexists. split; [reflexivity|]. unfold SetDouble, Reset. rewrite (proj2 (ReadOnly_ge x) X5), T. change (is_dbl TString) with false. cbv zeta.
      cbn [set_cell hp]. rewrite upd_same. apply fin_set2; auto; [apply okc_to_reset|apply okc_to_sv|exact I|].
      intros h H. split; [|discriminate]. apply rep_dbl_of; rewrite H; reflexivity. }
    destruct v as [|c0 v]; [destruct LV; congruence|]. cbv zeta. unfold flow in FL. cbn [hd] in FL.
    exists s. split; [|exact KEEP].
    destruct ((c0 =? 123) && (last (c0 :: v) 0 =? 125)); [reflexivity|]. cbn [orb] in FL. rewrite FL. reflexivity.
  - destruct (psv_fin p s c x v (flow_plain v LV FL) W L X5 T) as (s' & A & B). exists s'. split; [exact A|].
    unfold loaded. rewrite FL. destruct (scalar E v) eqn:Q; exact B.
Qed.

(** ** Lines as steps *)
Lemma run_cons p s l r p1 s1 : (2 <= List.length l)%nat -> pline p s l (lead l) = Ok (None, p1, s1) -> run p s (l :: r) = run p1 s1 r.
Proof. intros L H. cbn [YamlThms.run]. destruct (Nat.ltb_spec (List.length l) 2); [lia|]. rewrite H. reflexivity. Qed.
Lemma run_then a b p s p1 s1 : run p s a = Ok (None, p1, s1) -> run p s (a ++ b) = run p1 s1 b.
Proof. intros H. rewrite run_app, H. reflexivity. Qed.
(** The fields of the parser that no line of a tree changes. *)
Definition kept (p p' : yp) : Prop := y_cache p' = y_cache p /\ y_root p' = y_root p /\ uses p' = uses p.
Lemma kept_refl p : kept p p. Proof. repeat split. Qed.
Lemma kept_trans p q r : kept p q -> kept q r -> kept p r.
Proof. intros (A & B & C) (A' & B' & C'). repeat split; congruence. Qed.

Lemma entry_scalar p s c (D : nat_set) i i0 n rest u kvs k v : atl p (Z.of_nat i) i0 n rest -> y_cache p = c -> wf s -> ok_cache N s c ->
  good s D -> own (hp s) (y_v n) (VObject u kvs) D -> (u = true \/ kvs = []) -> find_key E kvs k = None -> plain_key k -> line_value v ->
  exists x p' s' D', pline p s (flat_line i (k, v)) (lead (flat_line i (k, v))) = Ok (None, p', s') /\ chg s c D s' D' /\
    own (hp s') (y_v n) (VObject true (kvs ++ [(k, loaded E v)])) D' /\
    stack p' = mkNode false (Z.of_nat i) x :: n :: rest /\ last_sp p' = Z.of_nat i /\ kept p p'.
Proof.
  intros AT YC W OC GD O UK FK PK PV. unfold flat_line. cbn [fst snd].
  pose proof PK as (K1 & [K2 K2'] & _ & _ & _ & K5 & K6 & _).
  assert (HD : hd 0 (k ++ [58; 32] ++ v) = hd 0 k) by (apply hd_app; auto).
  rewrite line_body; [|destruct k; [congruence|discriminate]|rewrite HD; intros Q; apply K2; rewrite Q; left; auto|congruence|apply no_comment_kv; auto].
  rewrite HD. destruct (Z.eqb_spec (hd 0 k) 45); [contradiction|]. rewrite (adj_at _ _ _ _ _ AT).
  assert (DT : c_dt (hp s (y_v n)) = TObject) by (inversion O as [? ? ? L| |]; subst; [destruct L|auto]).
  rewrite (obj_scalar _ s _ n rest _ k v); auto; [|apply split_kv_text; [auto|apply PV|apply PV]]. cbn [y_cache set_stack]. rewrite YC.
  destruct (slot_key s c D (y_v n) u kvs k TString W OC GD O UK FK) as (x & s0 & H1 & SN). rewrite H1. cbn [bind].
  destruct (fill_new _ _ _ _ _ _ _ _ W SN) as (W0 & X5 & XL & CL & _ & FILL).
  destruct (psv_line (set_first (set_stack p (n :: rest)) false) s0 c x v PV W0 XL X5 CL) as (s' & H2 & C1 & O1).
  rewrite H2. cbn [bind]. destruct (FILL s' _ _ C1 O1) as (D' & C & O').
  exists x. eexists _, s', D'. split; [reflexivity|]. split; [exact C|]. split; [exact O'|].
  split; [reflexivity|]. split; [reflexivity|]. repeat split.
Qed.
Lemma entry_key p s c (D : nat_set) i i0 n rest u kvs k : atl p (Z.of_nat i) i0 n rest -> y_cache p = c -> wf s -> ok_cache N s c ->
  good s D -> own (hp s) (y_v n) (VObject u kvs) D -> (u = true \/ kvs = []) -> find_key E kvs k = None -> plain_key k ->
  exists x p' s0, pline p s (key_line i k) (lead (key_line i k)) = Ok (None, p', s0) /\
    slot_new s c D (y_v n) TObject (fun w => VObject true (kvs ++ [(k, w)])) x s0 /\
    stack p' = mkNode false (Z.of_nat i) x :: n :: rest /\ last_sp p' = Z.of_nat i /\ kept p p'.
Proof.
  intros AT YC W OC GD O UK FK PK. unfold key_line.
  pose proof PK as (K1 & [K2 K2'] & _ & _ & _ & K5 & K6 & _).
  assert (HD : hd 0 (k ++ [58]) = hd 0 k) by (apply hd_app; auto).
  rewrite line_body; [|destruct k; [congruence|discriminate]|rewrite HD; intros Q; apply K2; rewrite Q; left; auto|congruence|apply no_comment_key; auto].
  rewrite HD. destruct (Z.eqb_spec (hd 0 k) 45); [contradiction|]. rewrite (adj_at _ _ _ _ _ AT).
  assert (DT : c_dt (hp s (y_v n)) = TObject) by (inversion O as [? ? ? L| |]; subst; [destruct L|auto]).
  rewrite (obj_key _ s _ n rest _ k); auto; [|apply split_key; auto]. cbn [y_cache set_stack]. rewrite YC.
  destruct (slot_key s c D (y_v n) u kvs k TObject W OC GD O UK FK) as (x & s0 & H1 & SN). rewrite H1. cbn [bind].
  exists x. eexists _, s0. split; [reflexivity|]. split; [exact SN|]. split; [reflexivity|]. split; [reflexivity|]. repeat split.
Qed.
Lemma arr_line p s i body n rest i0 : atl p (Z.of_nat i) i0 n rest -> body <> [] -> trimmed body -> no_comment body -> hd 0 body <> 35 ->
  c_dt (hp s (y_v n)) = TArray ->
  pline p s (item_line i body) (lead (item_line i body)) =
   (do (e, p2, s2) <-
     (let p1 := set_stack p (n :: rest) in
      let (el, s3) := SetIndexCached G s (y_v n) (-1) TString (y_cache p1) in
      let p3 := push_node p1 (mkNode false (Z.of_nat i) el) in
      let '(k, v, split) := splitKv body in
      if negb split then
        do (p4, s4) <- parseStringValue E G cf 1 p3 s3 el k; Ok (None, p4, s4)
      else match k with
      | [] => Ok (Some ErrYaml, p3, s3)
      | _ =>
            let s4 := Reset s3 el TObject in
            let p4 := set_first (push_node p1 (mkNode true (Z.of_nat i) el)) true in
            match v with
            | [] =>
                do (x, s5) <- SetKeyCached E G s4 el k TNull (y_cache p4);
                Ok (None, push_node p4 (mkNode true (Z.of_nat i) x), s5)
            | _ =>
                do (x, s5) <- SetKeyCached E G s4 el k TString (y_cache p4);
                do (p6, s6) <- parseStringValue E G cf 1 p4 s5 x v;
                Ok (None, push_node p6 (mkNode true (Z.of_nat i) x), s6)
            end
      end);
    Ok (e, set_last p2 (Z.of_nat i), s2)).
Proof.
  intros AT NE TR NC H35 DT. unfold item_line.
  rewrite line_body; [|discriminate|discriminate|discriminate|apply no_comment_cons; [discriminate|apply no_comment_sp; auto]].
  cbn [app hd tl]. change (45 =? 45) with true. cbv iota. rewrite (adj_at _ _ _ _ _ AT). unfold parseArray at 1.
  change (negb (32 =? 32)) with false. cbn [andb]. cbv zeta. rewrite (trim_lead body TR).
  cbn [stack set_stack]. rewrite DT. change (vt_eqb TArray TObject) with false. cbv iota. rewrite DT.
  change (vt_eqb TArray TArray) with true. cbv iota. destruct body as [|b0 body]; [congruence|]. reflexivity.
Qed.
Lemma item_val p s c (D : nat_set) i i0 n rest vs v : atl p (Z.of_nat i) i0 n rest -> y_cache p = c -> wf s -> ok_cache N s c ->
  good s D -> own (hp s) (y_v n) (VArray vs) D -> line_value v -> ~ In 58 v ->
  exists x p' s' D', pline p s (item_line i v) (lead (item_line i v)) = Ok (None, p', s') /\ chg s c D s' D' /\
    own (hp s') (y_v n) (VArray (vs ++ [loaded E v])) D' /\
    stack p' = mkNode false (Z.of_nat i) x :: n :: rest /\ last_sp p' = Z.of_nat i /\ kept p p'.
Proof.
  intros AT YC W OC GD O PV NC. pose proof PV as (V1 & V2 & V3 & V4 & V5 & V6 & V7).
  assert (DT : c_dt (hp s (y_v n)) = TArray) by (inversion O as [? ? ? L| |]; subst; [destruct L|auto]).
  rewrite (arr_line p s i v n rest i0) by auto. cbv zeta. cbn [y_cache set_stack]. rewrite YC.
  destruct (slot_item s c D (y_v n) vs TString W OC GD O) as (x & s0 & H1 & SN). rewrite H1.
  rewrite split_val by auto. cbn [negb].
  destruct (fill_new _ _ _ _ _ _ _ _ W SN) as (W0 & X5 & XL & CL & _ & FILL).
  match goal with |- context [parseStringValue _ _ _ _ ?q _ _ _] => destruct (psv_line q s0 c x v PV W0 XL X5 CL) as (s' & H2 & C1 & O1) end.
  rewrite H2. cbn [bind]. destruct (FILL s' _ _ C1 O1) as (D' & C & O').
  exists x. eexists _, s', D'. split; [reflexivity|]. split; [exact C|]. split; [exact O'|].
  split; [reflexivity|]. split; [reflexivity|]. repeat split.
Qed.
Lemma item_map p s c (D : nat_set) i i0 n rest vs k v : atl p (Z.of_nat i) i0 n rest -> y_cache p = c -> wf s -> ok_cache N s c ->
  good s D -> own (hp s) (y_v n) (VArray vs) D -> plain_key k -> line_value v ->
  exists el x p' s0 s' (De : nat_set), pline p s (item_line i (k ++ [58; 32] ++ v)) (lead (item_line i (k ++ [58; 32] ++ v))) = Ok (None, p', s') /\
    slot_new s c D (y_v n) TString (fun w => VArray (vs ++ [w])) el s0 /\
    chg s0 c (fun z => z = el) s' De /\ own (hp s') el (VObject true [(k, loaded E v)]) De /\
    stack p' = mkNode true (Z.of_nat i) x :: mkNode true (Z.of_nat i) el :: n :: rest /\ last_sp p' = Z.of_nat i /\ first_el p' = true /\ kept p p'.
Proof.
  intros AT YC W OC GD O PK PV. pose proof PV as (V1 & V2 & V3 & V4 & V5 & V6 & V7). pose proof PK as (K1 & K2 & K3 & K4 & K5 & K6 & K7 & K8).
  assert (DT : c_dt (hp s (y_v n)) = TArray) by (inversion O as [? ? ? L| |]; subst; [destruct L|auto]).
  rewrite (arr_line p s i (k ++ [58; 32] ++ v) n rest i0); auto; [|destruct k; [congruence|discriminate]|apply trimmed_kv; auto|apply no_comment_kv; auto|rewrite hd_app; auto].
  cbv zeta. cbn [y_cache set_stack]. rewrite YC.
  destruct (slot_item s c D (y_v n) vs TString W OC GD O) as (el & s0 & H1 & SN). rewrite H1.
  rewrite (split_kv_text k v PK V1 V2). cbn [negb].
  destruct (fill_new _ _ _ _ _ _ _ _ W SN) as (W0 & X5 & XL & CL & OC0 & FILL). specialize (OC0 OC GD).
  pose proof (proj2 (ReadOnly_ge el) X5) as RO. unfold Reset. rewrite RO.
  assert (G0 : good s0 (fun z => z = el)) by (intros z ->; auto).
  pose proof (chg_reset G s0 c (fun z => z = el) el TObject W0 G0 eq_refl) as C1. set (s1 := set_cell s0 el _) in *.
  pose proof (ch_wf _ _ _ _ _ C1) as W1. pose proof (chg_cache _ _ _ _ _ C1 W0 G0 OC0) as OC1.
  assert (O1 : own (hp s1) el (VObject false []) (fun z => z = el)).
  { apply (own_empty (hp s1) el KObj); auto. subst s1. cbn [set_cell hp]. rewrite upd_same. apply clean_reset. }
  clearbody s1. destruct k as [|k0 k]; [congruence|]. destruct v as [|v0 v]; [congruence|].
  cbn [y_cache set_first push_node set_stack]. rewrite YC.
  destruct (slot_key s1 c _ el false [] (k0 :: k) TString W1 OC1 (chg_good _ _ _ _ _ C1) O1 (or_intror eq_refl) eq_refl) as (x & s2 & H2 & SN2).
  rewrite H2. cbn [bind].
  destruct (fill_new _ _ _ _ _ _ _ _ W1 SN2) as (W2 & Y5 & YL' & CL2 & _ & FILL2).
  match goal with |- context [parseStringValue _ _ _ _ ?q _ _ _] => destruct (psv_line q s2 c x (v0 :: v) PV W2 YL' Y5 CL2) as (s' & H3 & C3 & O3) end.
  rewrite H3. cbn [bind]. destruct (FILL2 s' _ _ C3 O3) as (De & C4 & O4).
  exists el, x. eexists _, s0, s', De. split; [reflexivity|]. split; [exact SN|].
  split; [exact (chg_trans _ _ _ _ _ _ _ W0 C1 C4)|]. split; [exact O4|]. split; [reflexivity|]. split; [reflexivity|]. split; [reflexivity|]. repeat split.
Qed.

(** ** Trees *)
Lemma keys_val es : map fst (val_e (loaded E) es) = keys_e es.
Proof. induction es; cbn [val_e keys_e map fst]; [reflexivity|]. f_equal; auto. Qed.
Lemma absent (kvs : list (bytes * value)) k r : distinct same (map fst kvs ++ k :: r) -> find_key E kvs k = None.
Proof.
  intros D. apply find_key_none'. intros k' x I. revert D. induction kvs as [|[k0 x0] kvs IH]; intros D; [contradiction|].
  cbn [map fst app] in D. inversion D as [|? ? F D']; subst. destruct I as [Q|I].
  - injection Q as -> ->. rewrite Forall_forall in F. apply F. apply in_or_app; right; left; auto.
  - apply IH; auto.
Qed.
Lemma own_obj_in h x u kvs D : own h x (VObject u kvs) D -> D x.
Proof. apply own_in. Qed.
Lemma flat_len i k v : plain_key k -> (2 <= List.length (flat_line i (k, v)))%nat.
Proof. intros (K & _). unfold flat_line. rewrite !app_length. cbn [fst snd]. destruct k; [congruence|]. cbn [List.length]. lia. Qed.
Lemma key_len i k : plain_key k -> (2 <= List.length (key_line i k))%nat.
Proof. intros (K & _). unfold key_line. rewrite !app_length. destruct k; [congruence|]. cbn [List.length]. lia. Qed.
Lemma item_len i v : (2 <= List.length (item_line i v))%nat.
Proof. unfold item_line. rewrite !app_length. cbn [List.length]. lia. Qed.

Definition steps p s c (D : nat_set) ls l w (q : yp -> Prop) : Prop :=
  exists p' s' D', run p s ls = Ok (None, p', s') /\ chg s c D s' D' /\ own (hp s') l w D' /\ q p' /\ kept p p'.
Definition P_e (es : yents) : Prop := forall p s c (D : nat_set) i i0 n rest u kvs,
  atl p (Z.of_nat i) i0 n rest -> i0 <= Z.of_nat i -> y_cache p = c -> wf s -> ok_cache N s c -> good s D ->
  own (hp s) (y_v n) (VObject u kvs) D -> (u = true \/ kvs = []) -> good_e line_value same es -> distinct same (map fst kvs ++ keys_e es) ->
  steps p s c D (lines_e i es) (y_v n) (VObject (u || some_e es) (kvs ++ val_e (loaded E) es)) (fun p' => atl p' (Z.of_nat i) i0 n rest).
Definition P_i (l : yitems) : Prop := forall p s c (D : nat_set) i n rest vs,
  atl p (Z.of_nat i) (Z.of_nat i) n rest -> y_cache p = c -> wf s -> ok_cache N s c -> good s D ->
  own (hp s) (y_v n) (VArray vs) D -> good_i line_value same l ->
  steps p s c D (lines_i i l) (y_v n) (VArray (vs ++ val_i (loaded E) l)) (fun p' => atl p' (Z.of_nat i) (Z.of_nat i) n rest).
Definition P_t (t : ytree) : Prop := match t with YS _ => True | YM _ es => P_e es | YL _ l => P_i l end.

(** The first item turns an object into an array. *)
Lemma items_reset p s i l n rest i0 : atl p (Z.of_nat i) i0 n rest -> l <> INil -> good_i line_value same l -> c_dt (hp s (y_v n)) = TObject ->
  (5 <= y_v n)%nat -> run p s (lines_i i l) = run p (Reset s (y_v n) TArray) (lines_i i l).
Proof.
  intros AT NL GI DT L5.
  assert (H : forall v r, v <> [] -> trimmed v -> no_comment v -> hd 0 v <> 35 ->
    run p s (item_line i v :: r) = run p (Reset s (y_v n) TArray) (item_line i v :: r)).
  { intros v r NE TR NC H35. cbn [YamlThms.run]. pose proof (item_len i v). destruct (Nat.ltb_spec (List.length (item_line i v)) 2); [lia|].
    replace (pline p s (item_line i v) (lead (item_line i v))) with (pline p (Reset s (y_v n) TArray) (item_line i v) (lead (item_line i v))); [reflexivity|].
    assert (B : hd 0 ([45; 32] ++ v) = 45) by reflexivity.
    unfold item_line. rewrite !line_body by (first [discriminate | apply no_comment_cons; [discriminate|apply no_comment_sp; auto]]).
    rewrite B. change (45 =? 45) with true. cbv iota. rewrite (adj_at _ _ _ _ _ AT). cbn [app tl].
    f_equal. unfold parseArray. change (negb (32 =? 32)) with false. cbn [andb]. cbv zeta.
    cbn [stack set_stack]. rewrite DT. change (vt_eqb TObject TObject) with true. cbv iota.
    assert (DT' : c_dt (hp (Reset s (y_v n) TArray) (y_v n)) = TArray).
    { unfold Reset. rewrite (proj2 (ReadOnly_ge _) L5). cbn [set_cell hp]. rewrite upd_same. apply dt_reset. }
    rewrite DT'. change (vt_eqb TArray TObject) with false. cbv iota. rewrite DT'. reflexivity. }
  destruct l as [|v r|k v es r]; [congruence| |]; cbn [lines_i good_i] in *.
  - destruct GI as ((V1 & V2 & V3 & V4 & V5 & V6 & V7) & _). apply H; auto.
  - destruct GI as (PK & PV & _). pose proof PK as (K1 & K2 & K3 & K4 & K5 & K6 & K7 & K8). apply H.
    + destruct k; [congruence|discriminate].
    + apply trimmed_kv; auto.
    + apply no_comment_kv; auto.
    + rewrite hd_app; auto.
Qed.

Theorem tree_ok : (forall t, P_t t) /\ (forall es, P_e es) /\ (forall l, P_i l).
Proof.
  apply ytree_mut.
  - intros v. exact I.
  - intros d es IH. exact IH.
  - intros d l IH. exact IH.
  - intros p s c D i i0 n rest u kvs AT LI YC W OC GD O UK GE DS. cbn [lines_e val_e some_e]. rewrite app_nil_r, orb_false_r.
    exists p, s, D. split; [reflexivity|]. split; [apply chg_refl; auto|]. split; [exact O|]. split; [exact AT|apply kept_refl].
  - intros k t IHt r IHr p s c D i i0 n rest u kvs AT LI YC W OC GD O UK (PK & GT & GR) DS.
    change (lines_e i (ECons k t r)) with (lines_t i k t ++ lines_e i r).
    change (val_e (loaded E) (ECons k t r)) with ((k, val_t (loaded E) t) :: val_e (loaded E) r). cbn [some_e]. rewrite orb_true_r. cbn [keys_e] in DS.
    pose proof (absent kvs k _ DS) as FK.
    assert (DS' : distinct same (map fst (kvs ++ [(k, val_t (loaded E) t)]) ++ keys_e r)) by (rewrite map_app, <- app_assoc; exact DS).
    assert (NI : y_sp n < Z.of_nat i) by (destruct AT as (pre & _ & Q & _); exact Q).
    assert (FST : exists p1 s1 D1, run p s (lines_t i k t) = Ok (None, p1, s1) /\ chg s c D s1 D1 /\
       own (hp s1) (y_v n) (VObject true (kvs ++ [(k, val_t (loaded E) t)])) D1 /\ atl p1 (Z.of_nat i) i0 n rest /\ kept p p1).
    { destruct t as [v|d es|d l].
      - change (line_value v) in GT. change (lines_t i k (YS v)) with [flat_line i (k, v)]. change (val_t (loaded E) (YS v)) with (loaded E v).
        destruct (entry_scalar p s c D i i0 n rest u kvs k v AT YC W OC GD O UK FK PK GT) as (x & p1 & s1 & D1 & H & C & O1 & ST & LS & KP).
        exists p1, s1, D1. split; [rewrite (run_cons _ _ _ _ _ _ (flat_len i k v PK) H); reflexivity|].
        split; [exact C|]. split; [exact O1|]. split; [|exact KP]. eapply at_pushed; eauto.
      - change (good_e line_value same es /\ distinct same (keys_e es)) in GT. change (lines_t i k (YM d es)) with (key_line i k :: lines_e (i + S d) es).
        change (val_t (loaded E) (YM d es)) with (VObject (some_e es) (val_e (loaded E) es)). change (P_e es) in IHt. destruct GT as [GT DE].
        destruct (entry_key p s c D i i0 n rest u kvs k AT YC W OC GD O UK FK PK) as (x & p1 & s1 & H & SN & ST & LS & KP).
        destruct (fill_new _ _ _ _ _ _ _ _ W SN) as (W1 & X5 & XL & CL & OC1 & FILL). specialize (OC1 OC GD).
        assert (OX : own (hp s1) x (VObject false []) (fun z => z = x)) by (apply (own_empty _ _ KObj); auto).
        destruct (IHt p1 s1 c (fun z => z = x) (i + S d)%nat (Z.of_nat (i + S d)) (mkNode false (Z.of_nat i) x) (n :: rest) false [])
          as (p2 & s2 & D2 & H2 & C2 & O2 & AT2 & KP2); auto.
        + apply at_opened; auto. lia.
        + lia.
        + rewrite (proj1 KP). exact YC.
        + intros z ->. auto.
        + destruct (FILL s2 D2 _ C2 O2) as (D3 & C3 & O3). exists p2, s2, D3.
          split; [rewrite (run_cons _ _ _ _ _ _ (key_len i k PK) H); exact H2|]. split; [exact C3|]. split; [exact O3|].
          split; [|exact (kept_trans _ _ _ KP KP2)].
          eapply (at_lower p2 (Z.of_nat i) (Z.of_nat (i + S d))); eauto; lia.
      - change (l <> INil /\ good_i line_value same l) in GT. change (lines_t i k (YL d l)) with (key_line i k :: lines_i (i + S d) l).
        change (val_t (loaded E) (YL d l)) with (VArray (val_i (loaded E) l)). change (P_i l) in IHt. destruct GT as [NL GT].
        destruct (entry_key p s c D i i0 n rest u kvs k AT YC W OC GD O UK FK PK) as (x & p1 & s1 & H & SN & ST & LS & KP).
        destruct (fill_new _ _ _ _ _ _ _ _ W SN) as (W1 & X5 & XL & CL & OC1 & FILL). specialize (OC1 OC GD).
        assert (AT1 : atl p1 (Z.of_nat (i + S d)) (Z.of_nat (i + S d)) (mkNode false (Z.of_nat i) x) (n :: rest)) by (apply at_opened; auto; lia).
        assert (GX : good s1 (fun z => z = x)) by (intros z ->; auto).
        pose proof (chg_reset G s1 c (fun z => z = x) x TArray W1 GX eq_refl) as CR.
        pose proof (items_reset p1 s1 (i + S d) l _ _ _ AT1 NL GT (proj1 CL) X5) as RS. cbn [y_v] in RS.
        unfold Reset in RS. rewrite (proj2 (ReadOnly_ge _) X5) in RS. set (s1' := set_cell s1 x _) in *.
        assert (OX : own (hp s1') x (VArray []) (fun z => z = x)).
        { apply (own_empty _ _ KArr); auto. subst s1'. cbn [set_cell hp]. rewrite upd_same. apply clean_reset. }
        destruct (IHt p1 s1' c (fun z => z = x) (i + S d)%nat (mkNode false (Z.of_nat i) x) (n :: rest) [] AT1 (eq_trans (proj1 KP) YC)
                    (ch_wf _ _ _ _ _ CR) (chg_cache _ _ _ _ _ CR W1 GX OC1) (chg_good _ _ _ _ _ CR) OX GT)
          as (p2 & s2 & D2 & H2 & C2 & O2 & AT2 & KP2).
        { destruct (FILL s2 D2 _ (chg_trans _ _ _ _ _ _ _ W1 CR C2) O2) as (D3 & C3 & O3). exists p2, s2, D3.
          split; [rewrite (run_cons _ _ _ _ _ _ (key_len i k PK) H), RS; exact H2|]. split; [exact C3|]. split; [exact O3|].
          split; [|exact (kept_trans _ _ _ KP KP2)].
          eapply (at_lower p2 (Z.of_nat i) (Z.of_nat (i + S d))); eauto; lia. } }
    destruct FST as (p1 & s1 & D1 & H1 & C1 & O1 & AT1 & KP1).
    destruct (IHr p1 s1 c D1 i i0 n rest true (kvs ++ [(k, val_t (loaded E) t)])) as (p2 & s2 & D2 & H2 & C2 & O2 & AT2 & KP2); auto.
    + rewrite (proj1 KP1). exact YC.
    + apply C1.
    + exact (chg_cache _ _ _ _ _ C1 W GD OC).
    + exact (chg_good _ _ _ _ _ C1).
    + exists p2, s2, D2. split; [rewrite (run_then _ _ _ _ _ _ H1); exact H2|]. split; [exact (chg_trans _ _ _ _ _ _ _ W C1 C2)|].
      split; [|split; [exact AT2|exact (kept_trans _ _ _ KP1 KP2)]].
      cbn [orb] in O2. rewrite <- app_assoc in O2. exact O2.
  - intros p s c D i n rest vs AT YC W OC GD O GI. cbn [lines_i val_i]. rewrite app_nil_r.
    exists p, s, D. split; [reflexivity|]. split; [apply chg_refl; auto|]. split; [exact O|]. split; [exact AT|apply kept_refl].
  - intros v r IHr p s c D i n rest vs AT YC W OC GD O (PV & NC & GR).
    change (lines_i i (IVal v r)) with (item_line i v :: lines_i i r). change (val_i (loaded E) (IVal v r)) with (loaded E v :: val_i (loaded E) r).
    assert (NI : y_sp n < Z.of_nat i) by (destruct AT as (pre & _ & Q & _); exact Q).
    destruct (item_val p s c D i _ n rest vs v AT YC W OC GD O PV NC) as (x & p1 & s1 & D1 & H1 & C1 & O1 & ST & LS & KP1).
    destruct (IHr p1 s1 c D1 i n rest (vs ++ [loaded E v])) as (p2 & s2 & D2 & H2 & C2 & O2 & AT2 & KP2); auto.
    + eapply at_pushed; eauto. lia.
    + rewrite (proj1 KP1). exact YC.
    + apply C1.
    + exact (chg_cache _ _ _ _ _ C1 W GD OC).
    + exact (chg_good _ _ _ _ _ C1).
    + exists p2, s2, D2. split; [rewrite (run_cons _ _ _ _ _ _ (item_len i v) H1); exact H2|]. split; [exact (chg_trans _ _ _ _ _ _ _ W C1 C2)|].
      split; [|split; [exact AT2|exact (kept_trans _ _ _ KP1 KP2)]]. rewrite <- app_assoc in O2. exact O2.
  - intros k v es IHe r IHr p s c D i n rest vs AT YC W OC GD O (PK & PV & GE & DE & GR).
    change (lines_i i (IMap k v es r)) with (item_line i (k ++ [58; 32] ++ v) :: lines_e (i + 2) es ++ lines_i i r).
    change (val_i (loaded E) (IMap k v es r)) with (VObject true ((k, loaded E v) :: val_e (loaded E) es) :: val_i (loaded E) r).
    assert (NI : y_sp n < Z.of_nat i) by (destruct AT as (pre & _ & Q & _); exact Q).
    destruct (item_map p s c D i _ n rest vs k v AT YC W OC GD O PK PV) as (el & x & p1 & s0 & s1 & De & H1 & SN & C1 & O1 & ST & LS & FE & KP1).
    destruct (fill_new _ _ _ _ _ _ _ _ W SN) as (W0 & X5 & XL & CL & OC0 & FILL). specialize (OC0 OC GD).
    assert (G0 : good s0 (fun z => z = el)) by (intros z ->; auto).
    destruct (IHe p1 s1 c De (i + 2)%nat (Z.of_nat i) (mkNode true (Z.of_nat i) el) (n :: rest) true [(k, loaded E v)])
      as (p2 & s2 & D2 & H2 & C2 & O2 & AT2 & KP2); auto.
    + exists [mkNode true (Z.of_nat i) x]. split; [exact ST|]. split; [cbn [y_sp]; lia|]. split; [constructor; [cbn [y_sp]; lia|constructor]|].
      unfold lsp. rewrite ST, FE, LS. cbn [y_map andb]. lia.
    + lia.
    + rewrite (proj1 KP1). exact YC.
    + apply C1.
    + exact (chg_cache _ _ _ _ _ C1 W0 G0 OC0).
    + exact (chg_good _ _ _ _ _ C1).
    + destruct (FILL s2 D2 _ (chg_trans _ _ _ _ _ _ _ W0 C1 C2) O2) as (D3 & C3 & O3). cbn [orb app] in O3.
      destruct (IHr p2 s2 c D3 i n rest (vs ++ [VObject true ((k, loaded E v) :: val_e (loaded E) es)])) as (p4 & s4 & D4 & H4 & C4 & O4 & AT4 & KP4); auto.
      * eapply (at_lower p2 (Z.of_nat i) (Z.of_nat (i + 2))); eauto; cbn [y_sp]; lia.
      * rewrite (proj1 KP2), (proj1 KP1). exact YC.
      * apply C3.
      * exact (chg_cache _ _ _ _ _ C3 W GD OC).
      * exact (chg_good _ _ _ _ _ C3).
      * exists p4, s4, D4. split; [rewrite (run_cons _ _ _ _ _ _ (item_len i _) H1), (run_then _ _ _ _ _ _ H2); exact H4|].
        split; [exact (chg_trans _ _ _ _ _ _ _ W C3 C4)|].
        split; [|split; [exact AT4|exact (kept_trans _ _ _ KP1 (kept_trans _ _ _ KP2 KP4))]].
        rewrite <- app_assoc in O4. exact O4.
Qed.
End Tree.
