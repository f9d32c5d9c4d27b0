(** Nested mappings and lists with anchors and aliases on scalars. *)
From Verif Require Import Base Values Tactics HeapModel HeapSpec HeapBase HeapConf HeapGet ApiSpec HeapMap
  HeapCalls HeapObj HeapForce HeapClone HeapTyped BsonModel BsonLoadThms YamlModel YamlSpec YamlThms YamlFlat YamlTreeSpec YamlTree
  YamlRefSpec.

(** ** Texts *)
Definition texty (t : bytes) : Prop := t <> [] /\ trimmed t /\ no_comment t /\ ~ In 10 t /\ hd 0 t <> 35.
Lemma no_comment_free b : ~ In 32 b -> no_comment b.
Proof. intros N x y Q. apply N. rewrite Q. apply in_or_app. right. left. reflexivity. Qed.
Lemma last_cons (c : Z) b d : b <> [] -> last (c :: b) d = last b d.
Proof. destruct b; [congruence|reflexivity]. Qed.
Lemma text_ok x : good_s x -> texty (text x).
Proof.
  destruct x as [v|a v|a]; cbn [good_s text].
  - intros (V1 & V2 & V3 & V4 & _ & _ & V5 & _). repeat split; auto; apply V2.
  - intros [(A1 & A2 & A3 & A4) (V1 & [V2 V2'] & V3 & V4 & _ & _ & V5 & _)].
    split; [discriminate|]. split; [|split; [|split]].
    + split; [cbn [hd In]; intuition discriminate|]. rewrite last_cons by (destruct a; discriminate).
      rewrite last_app by discriminate. rewrite last_cons by auto. exact V2'.
    + apply no_comment_cons; [discriminate|]. apply no_comment_app; auto.
      * apply no_comment_free; auto.
      * apply no_comment_sp; auto.
      * intros [_ Q]. discriminate.
    + intros [Q|Q]; [discriminate|]. apply in_app_or in Q as [Q|[Q|Q]]; auto. discriminate.
    + discriminate.
  - intros (A1 & A2 & A3 & A4). split; [discriminate|]. split; [|split; [|split]].
    + split; [cbn [hd In]; intuition discriminate|]. rewrite last_cons by auto. pose proof (last_in a 0 A1) as I.
      cbn [In]. intros [Q|[Q|[Q|[]]]]; rewrite <- Q in I; auto.
    + apply no_comment_cons; [discriminate|]. apply no_comment_free; auto.
    + intros [Q|Q]; [discriminate|auto].
    + discriminate.
Qed.
Lemma split_kv_text k t : plain_key k -> texty t -> splitKv (k ++ [58; 32] ++ t) = (k, t, true).
Proof.
  intros (K1 & [K2 K2'] & _ & K3 & _) (V1 & [V2 V2'] & _). unfold splitKv. cbv zeta.
  assert (T : trim (k ++ [58; 32] ++ t) = k ++ [58; 32] ++ t).
  { apply trim_id. split.
    - rewrite hd_app by auto. exact K2.
    - rewrite last_app by discriminate. rewrite last_app by auto. exact V2'. }
  rewrite T. cbn [app]. rewrite index_byte_at by auto.
  replace (S (List.length k)) with (List.length (k ++ [58])) by (rewrite app_length; cbn; lia).
  replace (k ++ 58 :: 32 :: t) with ((k ++ [58]) ++ 32 :: t) by (rewrite <- app_assoc; reflexivity).
  rewrite skipn_app, skipn_all, Nat.sub_diag. cbn [app skipn]. rewrite Z.eqb_refl.
  rewrite <- app_assoc. rewrite firstn_app, firstn_all, Nat.sub_diag. cbn [firstn]. rewrite app_nil_r.
  rewrite !trim_id by (split; auto). reflexivity.
Qed.
Lemma split_text t : texty t -> ~ In 58 t -> splitKv t = (t, [], false).
Proof. intros (_ & V & _) N. unfold splitKv. cbv zeta. rewrite (trim_id t V). rewrite index_byte_none by auto. reflexivity. Qed.
Lemma no_comment_kvt k t : plain_key k -> texty t -> no_comment (k ++ [58; 32] ++ t).
Proof.
  intros (K1 & [K2 K2'] & K3 & _) (V1 & _ & V3 & _ & V5).
  apply no_comment_app; auto.
  - cbn [app]. apply no_comment_cons; [discriminate|]. apply no_comment_sp; auto.
  - intros [Q _]. apply K2'. rewrite Q. left; auto.
Qed.
Lemma trimmed_kvt k t : plain_key k -> texty t -> trimmed (k ++ [58; 32] ++ t).
Proof.
  intros (K1 & [K2 K2'] & _) (V1 & [V2 V2'] & _). split.
  - rewrite hd_app by auto. exact K2.
  - rewrite last_app by discriminate. rewrite last_app by auto. exact V2'.
Qed.

(** ** The table of anchors *)
Lemma get_set_use l k x k' : get_use (set_use l k x) k' = if beq k k' then Some x else get_use l k'.
Proof.
  induction l as [|[j y] l IH]; cbn [set_use get_use]; [reflexivity|].
  destruct (beq j k) eqn:Q; cbn [get_use].
  - apply beq_eq in Q. subst j. destruct (beq k k'); reflexivity.
  - rewrite IH. destruct (beq j k') eqn:Q2; [|reflexivity]. destruct (beq k k') eqn:Q3; [|reflexivity].
    apply beq_eq in Q2, Q3. subst. assert (beq k' k' = true) by (apply beq_eq; reflexivity). congruence.
Qed.
Definition marked (p : yp) (x : nat) (v : sval) : yp :=
  match v with SAnchor a _ => set_uses p (set_use (uses p) a x) | _ => p end.
(** The indentation [parseObject] compares with. *)
Definition plsp (p : yp) (n : ynode) : Z := if first_el p && y_map n then last_sp p + 2 else last_sp p.
(** The fields of the parser that no line changes. *)
Definition same_root (p p' : yp) : Prop := y_cache p' = y_cache p /\ y_root p' = y_root p.
Lemma same_root_refl p : same_root p p. Proof. split; reflexivity. Qed.
Lemma same_root_trans p q r : same_root p q -> same_root q r -> same_root p r.
Proof. intros (A & B) (A' & B'). split; congruence. Qed.

Section Ref.
Variable E : env.
Variable G : nat -> nat.
Variable pick : st -> option nat.
Variable cf : nat.
Hypothesis CF : (0 < cf)%nat.
Hypothesis refs38 : forall r, x_parsefloat E (38 :: r) = None.
Hypothesis refs42 : forall r, x_parsefloat E (42 :: r) = None.
Notation N := none_set.
Notation same := (key_match E).
Notation pline := (parseLine E G pick cf).
Notation run := (run E G pick cf).
Notation psv := (parseStringValue E G cf).

Lemma scalar_leaf v : leaf_value (scalar E v) /\ scalar E v <> VNull.
Proof. unfold scalar. destruct (beq _ _); [|destruct (beq _ _); [|destruct (x_parsefloat E v)]]; split; try exact I; discriminate. Qed.
Lemma scalar_dt h u v : rep h (Some u) (scalar E v) -> c_dt (h u) <> TObject /\ c_dt (h u) <> TArray.
Proof.
  unfold scalar. destruct (beq _ _); [|destruct (beq _ _); [|destruct (x_parsefloat E v)]]; intros R; inversion R; subst;
    match goal with H : c_dt (h u) = _ |- _ => rewrite H end; split; discriminate.
Qed.

Definition known (s : st) (U : list (bytes * nat)) (A : anchors) : Prop :=
  forall a, match anchor A a with
            | None => get_use U a = None
            | Some w => exists u v, get_use U a = Some u /\ live s u /\ w = scalar E v /\ rep (hp s) (Some u) w
            end.
Lemma known_frame s s' U A l : known s U A -> (forall z, live s z -> live s' z) ->
  (forall z, live s z -> z <> l -> hp s' z = hp s z) -> (c_dt (hp s l) = TObject \/ c_dt (hp s l) = TArray) -> known s' U A.
Proof.
  intros K LV FR DT a. specialize (K a). destruct (anchor A a) as [w|]; [|exact K].
  destruct K as (u & v & K1 & K2 & -> & K4). exists u, v. split; [exact K1|]. split; [auto|]. split; [reflexivity|].
  eapply rep_scalar; [exact K4|]. apply FR; auto. intros ->. destruct (scalar_dt _ _ _ K4). intuition.
Qed.
Lemma known_frame' s s' U A : known s U A -> (forall z, live s z -> live s' z) ->
  (forall z, live s z -> hp s' z = hp s z) -> known s' U A.
Proof.
  intros K LV FR a. specialize (K a). destruct (anchor A a) as [w|]; [|exact K].
  destruct K as (u & v & K1 & K2 & -> & K4). exists u, v. split; [exact K1|]. split; [auto|]. split; [reflexivity|].
  eapply rep_scalar; [exact K4|]. apply FR; auto.
Qed.
Lemma known_live s U A a u : known s U A -> get_use U a = Some u -> live s u.
Proof. intros K Q. specialize (K a). destruct (anchor A a) as [w|]; [|congruence]. destruct K as (u' & v & K1 & K2 & _). congruence. Qed.
Lemma known_mark s p A x v : known s (uses p) A -> live s x -> rep (hp s) (Some x) (mean E A v) ->
  known s (uses (marked p x v)) (note E A v).
Proof.
  intros K L R. destruct v as [w|a w|a]; [exact K| |exact K]. cbn [marked note mean uses set_uses] in *. intros b.
  cbn [anchor]. rewrite get_set_use. destruct (beq a b); [|exact (K b)].
  exists x, w. auto.
Qed.
Lemma known_nil s : known s [] [].
Proof. intros a. reflexivity. Qed.

(** ** A scalar in a new string cell *)
Lemma psv_d p s x v : plain_value v -> psv 0 p s x v = psv 1 p s x v.
Proof.
  intros (V1 & _ & _ & _ & V2 & _). cbn [parseStringValue]. destruct (beq v b_true); [reflexivity|]. destruct (beq v b_false); [reflexivity|].
  destruct (x_parsefloat E v); [reflexivity|]. destruct v as [|c v]; [reflexivity|]. cbv zeta. cbn [hd] in V2.
  destruct (Z.eqb_spec c 38); [contradiction|]. reflexivity.
Qed.
Lemma set_string_fin s c x t : wf s -> live s x -> (5 <= x)%nat -> c_dt (hp s x) = TString ->
  BsonLoadThms.fin s c (fun z => z = x) x (VString t) (SetString s x t).
Proof.
  intros W L X5 T. unfold SetString, ensure. rewrite T. change (vt_eqb TString TString) with true. cbv zeta.
  apply fin_set; auto; [intros z ->; auto|apply okc_to_str|exact I|].
  intros h H. split; [|discriminate]. apply rep_str_of; rewrite H; [exact T|reflexivity].
Qed.
Lemma copy_scalar s c x u v cc : wf s -> live s x -> (5 <= x)%nat -> u <> x -> rep (hp s) (Some u) (scalar E v) ->
  exists s', CopyFrom G cf s x u cc = Ok s' /\ BsonLoadThms.fin s c (fun z => z = x) x (scalar E v) s'.
Proof.
  intros W L X5 UX R. pose proof (proj2 (ReadOnly_ge x) X5) as RO.
  assert (GD : good s (fun z => z = x)) by (intros z ->; auto).
  unfold CopyFrom, Reset. rewrite RO. cbv zeta.
  unfold scalar in *. destruct (beq _ _); [|destruct (beq _ _); [|destruct (x_parsefloat E v)]]; inversion R as [| | | | | | | | | | | | | | |]; subst;
    match goal with H : c_dt (hp s u) = _ |- _ => rewrite H end; cbn [set_cell hp]; rewrite ?upd_same; rewrite ?upd_other by auto.
  - rewrite dt_reset. change ((vt_code TInt <=? vt_code TTrue) && (vt_code TTrue <=? vt_code TDateTime)) with false. cbv iota.
    eexists. split; [reflexivity|]. apply fin_set; auto; [apply okc_to_reset|exact I|].
    intros h Hh. split; [|discriminate]. constructor. rewrite Hh. apply dt_reset.
  - rewrite dt_reset. change ((vt_code TInt <=? vt_code TFalse) && (vt_code TFalse <=? vt_code TDateTime)) with false. cbv iota.
    eexists. split; [reflexivity|]. apply fin_set; auto; [apply okc_to_reset|exact I|].
    intros h Hh. split; [|discriminate]. constructor. rewrite Hh. apply dt_reset.
  - rewrite dt_reset. change ((vt_code TInt <=? vt_code TDouble) && (vt_code TDouble <=? vt_code TDateTime)) with true. cbv iota.
    eexists. split; [reflexivity|]. apply fin_set2; auto; [apply okc_to_reset|apply okc_to_sv|exact I|].
    intros h Hh. split; [|discriminate]. apply rep_dbl_of; rewrite Hh; reflexivity.
  - eexists. split; [reflexivity|]. apply fin_set2; auto; [apply okc_to_reset|apply okc_to_str|exact I|].
    intros h Hh. split; [|discriminate]. apply rep_str_of; rewrite Hh; reflexivity.
Qed.
Lemma psv_ref p s c x v A : good_s v -> wf s -> live s x -> (5 <= x)%nat -> c_dt (hp s x) = TString ->
  known s (uses p) A -> (forall a, get_use (uses p) a <> Some x) ->
  exists s', psv 1 p s x (text v) = Ok (marked p x v, s') /\ BsonLoadThms.fin s c (fun z => z = x) x (mean E A v) s'.
Proof.
  intros GS W L X5 T K NX. destruct v as [v|a v|a]; cbn [good_s text mean marked] in *.
  - apply psv_fin; auto.
  - destruct GS as [(A1 & A2 & A3 & A4) PV]. pose proof PV as (V1 & V2 & _).
    destruct (psv_fin E G cf (set_uses p (set_use (uses p) a x)) s c x v PV W L X5 T) as (s' & H & F). exists s'. split; [|exact F].
    rewrite <- H, <- (psv_d _ s x v PV). cbn [parseStringValue].
    change (beq (38 :: a ++ 32 :: v) b_true) with false. change (beq (38 :: a ++ 32 :: v) b_false) with false. rewrite refs38. cbv iota zeta.
    change (38 =? 123) with false. change (38 =? 91) with false. change (38 =? 38) with true. cbn [andb]. cbv iota.
    change (38 :: a ++ 32 :: v) with ((38 :: a) ++ 32 :: v).
    rewrite index_byte_at by (intros [Q|Q]; [discriminate|auto]).
    rewrite firstn_app, firstn_all, Nat.sub_diag. cbn [firstn]. rewrite app_nil_r.
    replace (skipn (S (List.length (38 :: a))) ((38 :: a) ++ 32 :: v)) with v.
    2: { replace (S (List.length (38 :: a))) with (List.length ((38 :: a) ++ [32])) by (rewrite app_length; cbn; lia).
         replace ((38 :: a) ++ 32 :: v) with (((38 :: a) ++ [32]) ++ v) by (rewrite <- app_assoc; reflexivity).
         rewrite skipn_app, skipn_all, Nat.sub_diag. reflexivity. }
    rewrite trim_id by exact V2. cbn [skipn]. destruct v as [|v0 v]; [congruence|]. reflexivity.
  - destruct GS as (A1 & A2 & A3 & A4). cbn [parseStringValue].
    change (beq (42 :: a) b_true) with false. change (beq (42 :: a) b_false) with false. rewrite refs42. cbv iota zeta.
    change (42 =? 123) with false. change (42 =? 91) with false. change (42 =? 38) with false. change (42 =? 42) with true. cbn [andb]. cbv iota.
    assert (AN : anchor_name (42 :: a) = a).
    { unfold anchor_name. rewrite index_byte_none by (intros [Q|Q]; [discriminate|auto]). reflexivity. }
    rewrite AN. pose proof (K a) as Ka. destruct (anchor A a) as [w|].
    + destruct Ka as (u & v & K1 & K2 & -> & K4). rewrite K1.
      destruct (copy_scalar s c x u v (y_cache p) W L X5) as (s' & H & F); auto; [intros ->; exact (NX a K1)|].
      exists s'. rewrite H. split; [reflexivity|exact F].
    + rewrite Ka. eexists. split; [reflexivity|]. apply set_string_fin; auto.
Qed.

(** ** New elements, with what stays as it is *)
Lemma slot_key' s c (D : nat_set) l u kvs key t : wf s -> ok_cache N s c -> good s D -> own (hp s) l (VObject u kvs) D ->
  (u = true \/ kvs = []) -> find_key E kvs key = None ->
  exists x s0, SetKeyCached E G s l key t c = Ok (x, s0) /\ slot_new s c D l t (fun w => VObject true (kvs ++ [(key, w)])) x s0 /\
    ~ live s x /\ (forall z, live s z -> live s0 z) /\ (forall z, live s z -> z <> l -> hp s0 z = hp s z).
Proof.
  intros W OC GD O UK FK. destruct (slot_key E G s c D l u kvs key t W OC GD O UK FK) as (x & s0 & H & SN).
  exists x, s0. split; [exact H|]. split; [exact SN|]. clear SN. revert H.
  inversion O as [? ? ? L|x' kvs0 D' DK DT KS OS DL ND SU|]; subst; [destruct L|].
  unfold SetKeyCached. rewrite DT. change (vt_eqb TObject TArray) with false. change (vt_eqb TObject TObject) with true.
  cbn [andb]. cbv zeta. unfold obj_index.
  rewrite index_absent; [|destruct UK as [UK| ->]; [auto|right; destruct (c_kvs (hp s l)); [auto|discriminate]]|rewrite (find_key_fst E _ kvs key KS); exact FK].
  cbn [fst snd].
  assert (C2 : chg s c D (set_cell s l (w_obj (hp s l) true (c_kvs (hp s l)) (c_spare (hp s l)))) D) by (apply chg_set; auto).
  set (s2 := set_cell s l _) in *. pose proof (ch_wf _ _ _ _ _ C2) as W2. pose proof (chg_good _ _ _ _ _ C2) as GD2.
  pose proof (chg_cache _ _ _ _ _ C2 W GD OC) as OC2.
  assert (F2 : forall z, z <> l -> hp s2 z = hp s z) by (intros z Z; subst s2; cbn [set_cell hp]; apply upd_other; auto).
  assert (L2 : forall z, live s2 z <-> live s z) by (intros z; subst s2; reflexivity).
  clearbody s2. destruct (getValue G s2 c t) as [r s3] eqn:GV. intros H. injection H as <- <-.
  destruct (chg_get G s2 c t r s3 D W2 OC2 GD2 GV) as (C3 & CL & NR & FR).
  split; [intros Q; apply NR, L2, Q|]. split; [intros z Z; apply (ch_lives _ _ _ _ _ C3), L2, Z|].
  intros z Z NZ. cbn [set_cell hp]. rewrite upd_other by auto. rewrite FR by (apply L2, Z). auto.
Qed.
Lemma slot_item' s c (D : nat_set) l vs t : wf s -> ok_cache N s c -> good s D -> own (hp s) l (VArray vs) D ->
  exists x s0, SetIndexCached G s l (-1) t c = (x, s0) /\ slot_new s c D l t (fun w => VArray (vs ++ [w])) x s0 /\
    ~ live s x /\ (forall z, live s z -> live s0 z) /\ (forall z, live s z -> z <> l -> hp s0 z = hp s z).
Proof.
  intros W OC GD O. destruct (slot_item G s c D l vs t W OC GD O) as (x & s0 & H & SN).
  exists x, s0. split; [exact H|]. split; [exact SN|]. clear SN. revert H.
  inversion O as [? ? ? L| |x' vs0 D' DK DT OS DL ND SU]; subst; [destruct L|].
  unfold SetIndexCached. rewrite DT. change (vt_eqb TArray TArray) with true. cbv zeta. change (0 <=? -1) with false. cbn [andb].
  destruct (getValue G s c t) as [r s3] eqn:GV. intros H. injection H as <- <-.
  destruct (chg_get G s c t r s3 D W OC GD GV) as (C3 & CL & NR & FR).
  split; [exact NR|]. split; [intros z Z; apply (ch_lives _ _ _ _ _ C3), Z|].
  intros z Z NZ. cbn [set_cell hp]. rewrite upd_other by auto. auto.
Qed.

(** What a line with a scalar does to the container [l]. *)
Definition put_in (s : st) c (D : nat_set) (l : nat) (w : value) (A : anchors) (v : sval) x (s' : st) : Prop :=
  exists D' : nat_set, chg s c D s' D' /\ own (hp s') l w D' /\ live s' x /\ rep (hp s') (Some x) (mean E A v) /\
    (forall z, live s z -> z <> l -> hp s' z = hp s z).
Lemma fin_rep s c x v s' : live s x -> BsonLoadThms.fin s c (fun z => z = x) x v s' -> live s' x /\ rep (hp s') (Some x) v.
Proof. intros L [C O]. split; [exact (ch_lives _ _ _ _ _ C _ L)|]. apply (proj1 (own_rep_all (hp s')) _ _ _ O). Qed.
Lemma put_slot p s c (D : nat_set) l t put x s0 v A : wf s -> slot_new s c D l t put x s0 -> t = TString -> ~ live s x ->
  (forall z, live s z -> live s0 z) -> (forall z, live s z -> z <> l -> hp s0 z = hp s z) -> c_dt (hp s l) = TObject \/ c_dt (hp s l) = TArray ->
  good_s v -> known s (uses p) A ->
  exists s', psv 1 p s0 x (text v) = Ok (marked p x v, s') /\ put_in s c D l (put (mean E A v)) A v x s'.
Proof.
  intros W SN -> NX LV FR DT GS K. destruct (fill_new _ _ _ _ _ _ _ _ W SN) as (W0 & X5 & XL & CL & _ & FILL).
  assert (K0 : known s0 (uses p) A) by exact (known_frame _ _ _ _ l K LV FR DT).
  destruct (psv_ref p s0 c x v A GS W0 XL X5 (proj1 CL) K0) as (s' & H & F).
  { intros a Q. apply NX. exact (known_live _ _ _ _ _ K Q). }
  exists s'. split; [exact H|]. destruct (fin_rep _ _ _ _ _ XL F) as [L' R']. destruct F as [C O].
  destruct (FILL s' _ _ C O) as (D' & C' & O'). exists D'. split; [exact C'|]. split; [exact O'|]. split; [exact L'|]. split; [exact R'|].
  intros z Z NZ. rewrite (ch_frame _ _ _ _ _ C); auto. intros ->. auto.
Qed.

(** A cell that is there is hung into an object. *)
Lemma attach s c (D Dx : nat_set) l u kvs key x w : wf s -> good s (fun z => D z \/ Dx z) -> own (hp s) l (VObject u kvs) D ->
  own (hp s) x w Dx -> (forall z, Dx z -> ~ D z) -> (u = true \/ kvs = []) -> find_key E kvs key = None ->
  let s' := SetKeyValue E G s l key (Some x) in
  chg s c (fun z => D z \/ Dx z) s' (fun z => D z \/ Dx z) /\ own (hp s') l (VObject true (kvs ++ [(key, w)])) (fun z => D z \/ Dx z) /\
  (forall z, z <> l -> hp s' z = hp s z).
Proof.
  intros W GD O OX DJ UK FK. inversion O as [? ? ? L|x' kvs0 D' DK DT KS OS DL ND SU|]; subst; [destruct L|].
  pose proof (own_in _ _ _ _ OX) as DX.
  assert (XL : x <> l) by (intros ->; exact (DJ l DX DL)).
  cbv zeta. unfold SetKeyValue. rewrite DT. change (vt_eqb TObject TArray) with false. change (vt_eqb TObject TObject) with true.
  cbn [andb]. cbv zeta. unfold obj_index.
  rewrite index_absent; [|destruct UK as [UK| ->]; [auto|right; destruct (c_kvs (hp s l)); [auto|discriminate]]|rewrite (find_key_fst E _ kvs key KS); exact FK].
  cbn [fst snd]. set (DD := fun z => D z \/ Dx z) in *.
  assert (C2 : chg s c DD (set_cell s l (w_obj (hp s l) true (c_kvs (hp s l)) (c_spare (hp s l)))) DD).
  { apply chg_set; auto; left; auto. }
  set (s2 := set_cell s l _) in *. pose proof (ch_wf _ _ _ _ _ C2) as W2. pose proof (chg_good _ _ _ _ _ C2) as GD2.
  assert (HL : hp s2 l = w_obj (hp s l) true (c_kvs (hp s l)) (c_spare (hp s l))) by (subst s2; cbn [set_cell hp]; apply upd_same).
  assert (F2 : forall z, z <> l -> hp s2 z = hp s z) by (intros z Z; subst s2; cbn [set_cell hp]; apply upd_other; auto).
  clearbody s2.
  assert (C3 : chg s2 c DD (set_cell s2 l (push_kv G (hp s2 l) key (Some x))) DD).
  { apply chg_set; auto; [left; auto|]. intros P PC OK K. apply okc_push; auto. apply ok_ptr_some. apply K. right; auto. }
  split; [exact (chg_trans _ _ _ _ _ _ _ W C2 C3)|].
  assert (FR : forall z, z <> l -> hp (set_cell s2 l (push_kv G (hp s2 l) key (Some x))) z = hp s z).
  { intros z Z. cbn [set_cell hp]. rewrite upd_other by auto. auto. }
  split; [|exact FR].
  assert (PK : let h := hp (set_cell s2 l (push_kv G (hp s2 l) key (Some x))) in
     c_dt (h l) = TObject /\ c_unesc (h l) = true /\ c_kvs (h l) = c_kvs (hp s l) ++ [(key, Some x)]).
  { cbn [set_cell hp]. rewrite upd_same, HL. unfold push_kv. cbn [w_obj c_spare]. destruct (c_spare (hp s l)); cbn [w_obj c_dt c_unesc c_kvs]; auto. }
  cbv zeta in PK. set (h := hp (set_cell s2 l _)) in *. destruct PK as (P1 & P2 & P3). rewrite <- P2.
  apply (own_obj h l _ _ (fun z => DK z \/ Dx z)); auto.
  - rewrite P3, !map_app, KS. reflexivity.
  - rewrite P3, !map_app. cbn [map snd]. apply owns_app.
    + eapply owns_frame; [exact OS|]. intros z Z. apply FR. intros ->. auto.
    + eapply own_frame; [exact OX|]. intros z Z. apply FR. intros ->. exact (DJ l Z DL).
    + intros z Z K. exact (DJ z Z (SU z K)).
  - left; auto.
  - intros [K|K]; [auto|]. exact (DJ l K DL).
  - intros z [Z|Z]; [left; auto|right; auto].
Qed.
(** Cloning a scalar that is not a boolean. *)
Lemma clone_scalar s c u v (D : nat_set) : wf s -> ok_cache N s c -> good s D -> live s u -> rep (hp s) (Some u) (scalar E v) ->
  scalar E v <> VTrue -> scalar E v <> VFalse ->
  exists x s1, clone G cf s (Some u) c = Ok (x, s1) /\ chg s c D s1 (fun z => D z \/ z = x) /\ ~ live s x /\
    own (hp s1) x (scalar E v) (fun z => z = x) /\ (forall z, live s z -> hp s1 z = hp s z).
Proof.
  intros W OC GD L R NT NF. destruct cf as [|f]; [lia|]. cbn [clone]. cbv zeta.
  unfold scalar in *. destruct (beq _ _); [congruence|]. destruct (beq _ _); [congruence|]. destruct (x_parsefloat E v);
    inversion R as [| | | | | | | | | | | | | | |]; subst; match goal with H : c_dt (hp s u) = _ |- _ => rewrite H end.
  - change (vt_code TTrue <=? vt_code TDouble) with false. cbv iota.
    destruct (getValue G s c TDouble) as [r s1] eqn:GV. destruct (chg_get G s c TDouble r s1 D W OC GD GV) as (C1 & CL & NR & FR).
    change ((vt_code TInt <=? vt_code TDouble) && (vt_code TDouble <=? vt_code TDateTime)) with true. cbv iota. rewrite (FR u L).
    eexists r, _. split; [reflexivity|]. split; [apply (chg_trans _ _ _ _ _ _ _ W C1); apply chg_set; auto; [apply C1|apply (chg_good _ _ _ _ _ C1)]|].
    split; [exact NR|]. split; [|intros z Z; cbn [set_cell hp]; rewrite upd_other by (intros ->; auto); auto].
    apply own_leaf; [exact I| |discriminate|reflexivity]. apply rep_dbl_of; cbn [set_cell hp]; rewrite upd_same; [apply CL|reflexivity].
  - change (vt_code TTrue <=? vt_code TString) with false. cbv iota.
    destruct (getValue G s c TString) as [r s1] eqn:GV. destruct (chg_get G s c TString r s1 D W OC GD GV) as (C1 & CL & NR & FR).
    change ((vt_code TInt <=? vt_code TString) && (vt_code TString <=? vt_code TDateTime)) with false. cbv iota. rewrite (FR u L).
    eexists r, _. split; [reflexivity|]. split; [apply (chg_trans _ _ _ _ _ _ _ W C1); apply chg_set; auto; [apply C1|apply (chg_good _ _ _ _ _ C1)]|].
    split; [exact NR|]. split; [|intros z Z; cbn [set_cell hp]; rewrite upd_other by (intros ->; auto); auto].
    apply own_leaf; [exact I| |discriminate|reflexivity]. apply rep_str_of; cbn [set_cell hp]; rewrite upd_same; [apply CL|reflexivity].
Qed.

(** The first entry of a block. *)
Lemma put_sub p s c (D : nat_set) l u kvs k v A : y_cache p = c -> wf s -> ok_cache N s c -> good s D -> own (hp s) l (VObject u kvs) D ->
  (u = true \/ kvs = []) -> find_key E kvs k = None -> good_s v -> known s (uses p) A ->
  (forall a, v = SAlias a -> anchor A a <> Some VTrue /\ anchor A a <> Some VFalse) ->
  exists x s', sub_value E G cf p s l k (text v) = Ok (x, marked p x v, s') /\
    put_in s c D l (VObject true (kvs ++ [(k, mean E A v)])) A v x s'.
Proof.
  intros YC W OC GD O UK FK GS K NB.
  assert (DT : c_dt (hp s l) = TObject) by (inversion O as [? ? ? L| |]; subst; [destruct L|auto]).
  destruct (slot_key' s c D l u kvs k TString W OC GD O UK FK) as (x & s0 & H1 & SN & NX & LV & FR).
  destruct v as [v|a v|a]; cbn [good_s text marked] in *.
  - destruct (put_slot p s c D l _ _ x s0 (SPlain v) A W SN eq_refl NX LV FR (or_introl DT) GS K) as (s' & H2 & PI). cbn [text marked] in H2.
    pose proof GS as (V1 & _ & _ & _ & V2 & V3 & _). exists x, s'. split; [|exact PI].
    unfold sub_value. destruct v as [|v0 v]; [congruence|]. cbn [hd] in V2, V3. destruct (Z.eqb_spec v0 38); [contradiction|].
    destruct (Z.eqb_spec v0 42); [contradiction|]. cbn [negb]. rewrite YC, H1. cbn [bind]. rewrite H2. reflexivity.
  - destruct GS as [(A1 & A2 & A3 & A4) PV]. pose proof PV as (V1 & V2 & _).
    destruct (put_slot p s c D l _ _ x s0 (SPlain v) A W SN eq_refl NX LV FR (or_introl DT) PV K) as (s' & H2 & PI). cbn [text marked] in H2.
    exists x, s'. split; [|exact PI]. unfold sub_value. change (negb (38 =? 38)) with false. cbv iota.
    rewrite index_byte_at by auto. destruct a as [|a0 a]; [congruence|]. cbn [List.length].
    change (S (List.length a)) with (List.length (a0 :: a)).
    rewrite firstn_app, firstn_all, Nat.sub_diag. cbn [firstn]. rewrite app_nil_r.
    rewrite skipn_app, skipn_all, Nat.sub_diag. cbn [skipn app]. rewrite trim_lead by exact V2.
    destruct v as [|v0 v]; [congruence|]. rewrite YC, H1. cbn [bind]. rewrite H2. reflexivity.
  - unfold sub_value. change (negb (42 =? 38)) with true. change (42 =? 42) with true. cbv iota. cbn [mean].
    pose proof (K a) as Ka. specialize (NB a eq_refl). destruct (anchor A a) as [w|] eqn:QA.
    + destruct Ka as (u0 & v & K1 & K2 & -> & K4). rewrite K1, YC.
      destruct (clone_scalar s c u0 v D W OC GD K2 K4) as (y & s1 & H & C1 & NY & OY & FY); [intuition congruence|intuition congruence|].
      rewrite H. cbn [bind].
      assert (O1 : own (hp s1) l (VObject u kvs) D) by (eapply own_frame; [exact O|]; intros z Z; apply FY; apply GD; auto).
      assert (DJ : forall z, z = y -> ~ D z) by (intros z -> Q; apply NY; apply GD; auto).
      destruct (attach s1 c D (fun z => z = y) l u kvs k y (scalar E v) (ch_wf _ _ _ _ _ C1) (chg_good _ _ _ _ _ C1) O1 OY DJ UK FK) as (C2 & O2 & F2).
      exists y, (SetKeyValue E G s1 l k (Some y)). split; [reflexivity|].
      assert (YL : y <> l) by (intros ->; apply (DJ l eq_refl); apply (own_in _ _ _ _ O)).
      exists (fun z => D z \/ z = y). split; [exact (chg_trans _ _ _ _ _ _ _ W C1 C2)|]. split; [exact O2|].
      split; [apply C2; apply (chg_good _ _ _ _ _ C1); auto|]. cbn [mean]. rewrite QA. split.
      * destruct (scalar_leaf v) as [LF _]. eapply leaf_frame; [exact LF|apply (proj1 (own_rep_all (hp s1)) _ _ _ OY)|]. apply F2; auto.
      * intros z Z NZ. rewrite F2 by auto. auto.
    + rewrite Ka, YC, H1. cbn [bind].
      destruct (put_slot p s c D l _ _ x s0 (SAlias a) A W SN eq_refl NX LV FR (or_introl DT) GS K) as (s' & H2 & PI).
      cbn [mean] in PI. rewrite QA in PI.
      assert (SS : psv 1 p s0 x (text (SAlias a)) = Ok (p, SetString s0 x (42 :: a))).
      { cbn [text parseStringValue]. change (beq (42 :: a) b_true) with false. change (beq (42 :: a) b_false) with false. rewrite refs42. cbv iota zeta.
        change (42 =? 123) with false. change (42 =? 91) with false. change (42 =? 38) with false. change (42 =? 42) with true. cbn [andb]. cbv iota.
        unfold anchor_name. destruct GS as (A1 & A2 & A3 & A4). rewrite index_byte_none by (intros [Q|Q]; [discriminate|auto]). cbn [skipn].
        rewrite Ka. reflexivity. }
      rewrite SS in H2. injection H2 as <-. eexists x, _. split; [reflexivity|exact PI].
Qed.

(** ** One line *)
Lemma obj_text p s z n rest line k t : stack p = n :: rest -> c_dt (hp s (y_v n)) = TObject -> splitKv line = (k, t, true) ->
  plain_key k -> t <> [] ->
  parseObject E G pick cf p s line z =
    (if plsp p n <? z then
       do (x, p4, s4) <- sub_value E G cf (set_first p false) s (y_v n) k t; Ok (None, push_node p4 (mkNode false z x), s4)
     else
       do (x, s1) <- SetKeyCached E G s (y_v n) k TString (y_cache p);
       do (p2, s2) <- psv 1 (set_first p false) s1 x t;
       Ok (None, push_node p2 (mkNode false z x), s2)).
Proof.
  intros ST DT SK PK NT. unfold parseObject. rewrite ST. cbv zeta. rewrite SK. unfold plsp.
  pose proof PK as (K1 & _).
  destruct k as [|k0 k]; [congruence|]. cbn [andb negb]. rewrite !merge_plain by auto. cbn [bind].
  change (y_cache (set_first p false)) with (y_cache p). rewrite DT. change (vt_eqb TObject TObject) with true.
  destruct t as [|t0 t]; [congruence|]. cbn [negb orb].
  destruct (Z.eqb_spec (if first_el p && y_map n then last_sp p + 2 else last_sp p) z) as [Q|Q].
  - destruct (Z.ltb_spec (if first_el p && y_map n then last_sp p + 2 else last_sp p) z); [lia|].
    destruct (SetKeyCached E G s (y_v n) (k0 :: k) TString (y_cache p)) as [[x s1]| | |]; try reflexivity. cbn [bind].
    destruct (psv 1 (set_first p false) s1 x (t0 :: t)) as [[p2 s2]| | |]; reflexivity.
  - destruct (Z.ltb_spec (if first_el p && y_map n then last_sp p + 2 else last_sp p) z); reflexivity.
Qed.

Lemma entry_ref p s c (D : nat_set) i i0 n rest u kvs k v A : atl p (Z.of_nat i) i0 n rest -> y_cache p = c -> wf s -> ok_cache N s c ->
  good s D -> own (hp s) (y_v n) (VObject u kvs) D -> (u = true \/ kvs = []) -> find_key E kvs k = None -> plain_key k -> good_s v ->
  known s (uses p) A -> ((forall a, v = SAlias a -> anchor A a <> Some VTrue /\ anchor A a <> Some VFalse) \/ Z.of_nat i <= plsp p n) ->
  exists x p' s' D', pline p s (flat_line i (k, text v)) (lead (flat_line i (k, text v))) = Ok (None, p', s') /\ chg s c D s' D' /\
    own (hp s') (y_v n) (VObject true (kvs ++ [(k, mean E A v)])) D' /\
    stack p' = mkNode false (Z.of_nat i) x :: n :: rest /\ last_sp p' = Z.of_nat i /\ same_root p p' /\ known s' (uses p') (note E A v).
Proof.
  intros AT YC W OC GD O UK FK PK GS K NB. unfold flat_line. cbn [fst snd]. pose proof (text_ok v GS) as TX.
  pose proof PK as (K1 & [K2 K2'] & _ & _ & _ & K5 & K6 & _).
  assert (HD : hd 0 (k ++ [58; 32] ++ text v) = hd 0 k) by (apply hd_app; auto).
  rewrite line_body; [|destruct k; [congruence|discriminate]|rewrite HD; intros Q; apply K2; rewrite Q; left; auto|congruence|apply no_comment_kvt; auto].
  rewrite HD. destruct (Z.eqb_spec (hd 0 k) 45); [contradiction|]. rewrite (adj_at _ _ _ _ _ AT).
  assert (DT : c_dt (hp s (y_v n)) = TObject) by (inversion O as [? ? ? L| |]; subst; [destruct L|auto]).
  rewrite (obj_text _ s _ n rest _ k (text v)); auto; [|apply split_kv_text; auto|apply TX].
  set (q := set_first (set_stack p (n :: rest)) false). cbn [y_cache set_stack].
  change (plsp (set_stack p (n :: rest)) n) with (plsp p n).
  assert (FIN : forall x s', put_in s c D (y_v n) (VObject true (kvs ++ [(k, mean E A v)])) A v x s' ->
    let p' := set_last (push_node (marked q x v) (mkNode false (Z.of_nat i) x)) (Z.of_nat i) in
    exists D', chg s c D s' D' /\ own (hp s') (y_v n) (VObject true (kvs ++ [(k, mean E A v)])) D' /\
    stack p' = mkNode false (Z.of_nat i) x :: n :: rest /\ last_sp p' = Z.of_nat i /\ same_root p p' /\ known s' (uses p') (note E A v)).
  { intros x s' (D' & C & O' & L' & R' & FR). cbv zeta. exists D'. split; [exact C|]. split; [exact O'|].
    split; [destruct v; reflexivity|]. split; [reflexivity|]. split; [split; destruct v; reflexivity|].
    change (known s' (uses (marked q x v)) (note E A v)). apply known_mark; auto. change (uses q) with (uses p).
    exact (known_frame _ _ _ _ _ K (ch_lives _ _ _ _ _ C) FR (or_introl DT)). }
  destruct (Z.ltb_spec (plsp p n) (Z.of_nat i)) as [LT|GE].
  - destruct NB as [NB|NB]; [|lia].
    destruct (put_sub q s c D (y_v n) u kvs k v A YC W OC GD O UK FK GS K NB) as (x & s' & H & PI).
    change (set_first (set_stack p (n :: rest)) false) with q. rewrite H. cbn [bind].
    destruct (FIN x s' PI) as (D' & F). exists x. eexists _, s', D'. split; [reflexivity|exact F].
  - rewrite YC. destruct (slot_key' s c D (y_v n) u kvs k TString W OC GD O UK FK) as (x & s0 & H1 & SN & NX & LV & FR). rewrite H1. cbn [bind].
    destruct (put_slot q s c D (y_v n) _ _ x s0 v A W SN eq_refl NX LV FR (or_introl DT) GS K) as (s' & H2 & PI).
    change (set_first (set_stack p (n :: rest)) false) with q. rewrite H2. cbn [bind].
    destruct (FIN x s' PI) as (D' & F). exists x. eexists _, s', D'. split; [reflexivity|exact F].
Qed.
Lemma entry_key' p s c (D : nat_set) i i0 n rest u kvs k A : atl p (Z.of_nat i) i0 n rest -> y_cache p = c -> wf s -> ok_cache N s c ->
  good s D -> own (hp s) (y_v n) (VObject u kvs) D -> (u = true \/ kvs = []) -> find_key E kvs k = None -> plain_key k -> known s (uses p) A ->
  exists x p' s0, pline p s (key_line i k) (lead (key_line i k)) = Ok (None, p', s0) /\
    slot_new s c D (y_v n) TObject (fun w => VObject true (kvs ++ [(k, w)])) x s0 /\
    stack p' = mkNode false (Z.of_nat i) x :: n :: rest /\ last_sp p' = Z.of_nat i /\ same_root p p' /\ known s0 (uses p') A.
Proof.
  intros AT YC W OC GD O UK FK PK K. unfold key_line.
  pose proof PK as (K1 & [K2 K2'] & _ & _ & _ & K5 & K6 & _).
  assert (HD : hd 0 (k ++ [58]) = hd 0 k) by (apply hd_app; auto).
  rewrite line_body; [|destruct k; [congruence|discriminate]|rewrite HD; intros Q; apply K2; rewrite Q; left; auto|congruence|apply no_comment_key; auto].
  rewrite HD. destruct (Z.eqb_spec (hd 0 k) 45); [contradiction|]. rewrite (adj_at _ _ _ _ _ AT).
  assert (DT : c_dt (hp s (y_v n)) = TObject) by (inversion O as [? ? ? L| |]; subst; [destruct L|auto]).
  rewrite (obj_key E G pick cf _ s _ n rest _ k); auto; [|apply split_key; auto]. cbn [y_cache set_stack]. rewrite YC.
  destruct (slot_key' s c D (y_v n) u kvs k TObject W OC GD O UK FK) as (x & s0 & H1 & SN & NX & LV & FR). rewrite H1. cbn [bind].
  exists x. eexists _, s0. split; [reflexivity|]. split; [exact SN|]. split; [reflexivity|]. split; [reflexivity|]. split; [split; reflexivity|].
  exact (known_frame _ _ _ _ _ K LV FR (or_introl DT)).
Qed.
Lemma item_ref p s c (D : nat_set) i i0 n rest vs v A : atl p (Z.of_nat i) i0 n rest -> y_cache p = c -> wf s -> ok_cache N s c ->
  good s D -> own (hp s) (y_v n) (VArray vs) D -> good_s v -> ~ In 58 (text v) -> known s (uses p) A ->
  exists x p' s' D', pline p s (item_line i (text v)) (lead (item_line i (text v))) = Ok (None, p', s') /\ chg s c D s' D' /\
    own (hp s') (y_v n) (VArray (vs ++ [mean E A v])) D' /\
    stack p' = mkNode false (Z.of_nat i) x :: n :: rest /\ last_sp p' = Z.of_nat i /\ same_root p p' /\ known s' (uses p') (note E A v).
Proof.
  intros AT YC W OC GD O GS NC K. pose proof (text_ok v GS) as TX. pose proof TX as (V1 & V2 & V3 & V4 & V5).
  assert (DT : c_dt (hp s (y_v n)) = TArray) by (inversion O as [? ? ? L| |]; subst; [destruct L|auto]).
  rewrite (arr_line E G pick cf p s i (text v) n rest i0) by auto. cbv zeta. cbn [y_cache set_stack]. rewrite YC.
  destruct (slot_item' s c D (y_v n) vs TString W OC GD O) as (x & s0 & H1 & SN & NX & LV & FR). rewrite H1.
  rewrite split_text by auto. cbn [negb].
  set (q := push_node (set_stack p (n :: rest)) (mkNode false (Z.of_nat i) x)).
  destruct (put_slot q s c D (y_v n) _ _ x s0 v A W SN eq_refl NX LV FR (or_intror DT) GS K) as (s' & H2 & PI).
  rewrite H2. cbn [bind]. destruct PI as (D' & C & O' & L' & R' & FR').
  exists x. eexists _, s', D'. split; [reflexivity|]. split; [exact C|]. split; [exact O'|].
  split; [destruct v; reflexivity|]. split; [reflexivity|]. split; [split; destruct v; reflexivity|].
  change (known s' (uses (marked q x v)) (note E A v)). apply known_mark; auto. change (uses q) with (uses p).
  exact (known_frame _ _ _ _ _ K (ch_lives _ _ _ _ _ C) FR' (or_intror DT)).
Qed.
Lemma item_map_ref p s c (D : nat_set) i i0 n rest vs k v A : atl p (Z.of_nat i) i0 n rest -> y_cache p = c -> wf s -> ok_cache N s c ->
  good s D -> own (hp s) (y_v n) (VArray vs) D -> plain_key k -> good_s v -> known s (uses p) A ->
  exists el x p' s0 s' (De : nat_set), pline p s (item_line i (k ++ [58; 32] ++ text v)) (lead (item_line i (k ++ [58; 32] ++ text v))) = Ok (None, p', s') /\
    slot_new s c D (y_v n) TString (fun w => VArray (vs ++ [w])) el s0 /\
    chg s0 c (fun z => z = el) s' De /\ own (hp s') el (VObject true [(k, mean E A v)]) De /\
    stack p' = mkNode true (Z.of_nat i) x :: mkNode true (Z.of_nat i) el :: n :: rest /\ last_sp p' = Z.of_nat i /\ first_el p' = true /\
    same_root p p' /\ known s' (uses p') (note E A v).
Proof.
  intros AT YC W OC GD O PK GS K. pose proof (text_ok v GS) as TX. pose proof TX as (V1 & V2 & V3 & V4 & V5).
  pose proof PK as (K1 & K2 & K3 & K4 & K5 & K6 & K7 & K8).
  assert (DT : c_dt (hp s (y_v n)) = TArray) by (inversion O as [? ? ? L| |]; subst; [destruct L|auto]).
  rewrite (arr_line E G pick cf p s i (k ++ [58; 32] ++ text v) n rest i0); auto; [|destruct k; [congruence|discriminate]|apply trimmed_kvt; auto|apply no_comment_kvt; auto|rewrite hd_app; auto].
  cbv zeta. cbn [y_cache set_stack]. rewrite YC.
  destruct (slot_item' s c D (y_v n) vs TString W OC GD O) as (el & s0 & H1 & SN & NEL & LV & FR). rewrite H1.
  rewrite split_kv_text by auto. cbn [negb].
  destruct (fill_new _ _ _ _ _ _ _ _ W SN) as (W0 & X5 & XL & CL & OC0 & FILL). specialize (OC0 OC GD).
  pose proof (proj2 (ReadOnly_ge el) X5) as RO. unfold Reset. rewrite RO.
  assert (G0 : good s0 (fun z => z = el)) by (intros z ->; auto).
  pose proof (chg_reset G s0 c (fun z => z = el) el TObject W0 G0 eq_refl) as C1.
  assert (KS : known s0 (uses p) A) by exact (known_frame _ _ _ _ _ K LV FR (or_intror DT)).
  assert (NU : forall a, get_use (uses p) a <> Some el) by (intros a Q; apply NEL; exact (known_live _ _ _ _ _ K Q)).
  assert (KS1 : known (set_cell s0 el (reset_cell (hp s0 el) TObject)) (uses p) A).
  { intros a. specialize (KS a). destruct (anchor A a) as [w|]; [|exact KS]. destruct KS as (u & v0 & Q1 & Q2 & -> & Q4).
    exists u, v0. split; [exact Q1|]. split; [exact Q2|]. split; [reflexivity|]. eapply rep_scalar; [exact Q4|].
    cbn [set_cell hp]. apply upd_other. intros <-. exact (NU a Q1). }
  set (s1 := set_cell s0 el _) in *.
  pose proof (ch_wf _ _ _ _ _ C1) as W1. pose proof (chg_cache _ _ _ _ _ C1 W0 G0 OC0) as OC1.
  assert (O1 : own (hp s1) el (VObject false []) (fun z => z = el)).
  { apply (own_empty (hp s1) el KObj); auto. subst s1. cbn [set_cell hp]. rewrite upd_same. apply clean_reset. }
  clearbody s1. destruct k as [|k0 k]; [congruence|]. destruct (text v) as [|t0 t] eqn:QT; [congruence|].
  cbn [y_cache set_first push_node set_stack]. rewrite YC.
  destruct (slot_key' s1 c _ el false [] (k0 :: k) TString W1 OC1 (chg_good _ _ _ _ _ C1) O1 (or_intror eq_refl) eq_refl) as (x & s2 & H2 & SN2 & NX & LV2 & FR2).
  rewrite H2. cbn [bind].
  match goal with |- context [parseStringValue _ _ _ _ ?q0 _ _ _] => set (q := q0) end.
  assert (DE : c_dt (hp s1 el) = TObject) by (inversion O1 as [? ? ? L| |]; subst; [destruct L|auto]).
  destruct (put_slot q s1 c _ el _ _ x s2 v A W1 SN2 eq_refl NX LV2 FR2 (or_introl DE) GS KS1) as (s' & H3 & PI). rewrite QT in H3.
  rewrite H3. cbn [bind]. destruct PI as (De & C4 & O4 & L4 & R4 & FR4).
  exists el, x. eexists _, s0, s', De. split; [reflexivity|]. split; [exact SN|].
  split; [exact (chg_trans _ _ _ _ _ _ _ W0 C1 C4)|]. split; [exact O4|]. split; [destruct v; reflexivity|]. split; [reflexivity|]. split; [destruct v; reflexivity|].
  split; [split; destruct v; reflexivity|].
  change (known s' (uses (marked q x v)) (note E A v)). apply known_mark; auto. change (uses q) with (uses p).
  exact (known_frame _ _ _ _ _ KS1 (ch_lives _ _ _ _ _ C4) FR4 (or_introl DE)).
Qed.

(** ** Trees *)
Definition rsteps p s c (D : nat_set) ls l w A' (q : yp -> Prop) : Prop :=
  exists p' s' D', run p s ls = Ok (None, p', s') /\ chg s c D s' D' /\ own (hp s') l w D' /\ q p' /\ same_root p p' /\ known s' (uses p') A'.
Definition R_e (es : rents) : Prop := forall p s c (D : nat_set) i i0 b n rest u kvs A,
  atl p (Z.of_nat i) i0 n rest -> i0 <= Z.of_nat i -> b <= Z.of_nat i -> b <= last_sp p -> y_cache p = c -> wf s -> ok_cache N s c -> good s D ->
  own (hp s) (y_v n) (VObject u kvs) D -> (u = true \/ kvs = []) -> rgood_e E same A es -> distinct same (map fst kvs ++ keys_r es) ->
  known s (uses p) A -> (not_bool_alias A es \/ Z.of_nat i <= plsp p n) ->
  rsteps p s c D (rlines_e i es) (y_v n) (VObject (u || some_r es) (kvs ++ rval_e E A es)) (after_e E A es)
    (fun p' => atl p' (Z.of_nat i) i0 n rest /\ b <= last_sp p').
Definition R_i (l : ritems) : Prop := forall p s c (D : nat_set) i b n rest vs A,
  atl p (Z.of_nat i) (Z.of_nat i) n rest -> b <= Z.of_nat i -> b <= last_sp p -> y_cache p = c -> wf s -> ok_cache N s c -> good s D ->
  own (hp s) (y_v n) (VArray vs) D -> rgood_i E same A l -> known s (uses p) A ->
  rsteps p s c D (rlines_i i l) (y_v n) (VArray (vs ++ rval_i E A l)) (after_i E A l)
    (fun p' => atl p' (Z.of_nat i) (Z.of_nat i) n rest /\ b <= last_sp p').
Definition R_t (t : rtree) : Prop := match t with RS _ => True | RM _ es => R_e es | RL _ l => R_i l end.

Lemma ritems_reset p s i l n rest i0 A : atl p (Z.of_nat i) i0 n rest -> l <> LNil -> rgood_i E same A l -> c_dt (hp s (y_v n)) = TObject ->
  (5 <= y_v n)%nat -> run p s (rlines_i i l) = run p (Reset s (y_v n) TArray) (rlines_i i l).
Proof.
  intros AT NL GI DT L5.
  assert (H : forall v r, v <> [] -> trimmed v -> no_comment v -> hd 0 v <> 35 ->
    run p s (item_line i v :: r) = run p (Reset s (y_v n) TArray) (item_line i v :: r)).
  { intros v r NE TR NC H35. cbn [YamlThms.run]. pose proof (item_len G i v). destruct (Nat.ltb_spec (List.length (item_line i v)) 2); [lia|].
    replace (pline p s (item_line i v) (lead (item_line i v))) with (pline p (Reset s (y_v n) TArray) (item_line i v) (lead (item_line i v))); [reflexivity|].
    assert (B : hd 0 ([45; 32] ++ v) = 45) by reflexivity.
    unfold item_line. rewrite !line_body by (first [discriminate | apply no_comment_cons; [discriminate|apply no_comment_sp; auto]]).
    rewrite B. change (45 =? 45) with true. cbv iota. rewrite (adj_at _ _ _ _ _ AT). cbn [app tl].
    f_equal. unfold parseArray. change (negb (32 =? 32)) with false. cbn [andb]. cbv zeta.
    cbn [stack set_stack]. rewrite DT. change (vt_eqb TObject TObject) with true. cbv iota.
    assert (DT' : c_dt (hp (Reset s (y_v n) TArray) (y_v n)) = TArray).
    { unfold Reset. rewrite (proj2 (ReadOnly_ge _) L5). cbn [set_cell hp]. rewrite upd_same. apply dt_reset. }
    rewrite DT'. change (vt_eqb TArray TObject) with false. cbv iota. rewrite DT'. reflexivity. }
  destruct l as [|v r|k v es r]; [congruence| |]; cbn [rlines_i rgood_i] in *.
  - destruct (text_ok v (proj1 GI)) as (V1 & V2 & V3 & V4 & V5). apply H; auto.
  - destruct GI as (PK & GS & _). pose proof (text_ok v GS) as TX. pose proof PK as (K1 & K2 & K3 & K4 & K5 & K6 & K7 & K8). apply H.
    + destruct k; [congruence|discriminate].
    + apply trimmed_kvt; auto.
    + apply no_comment_kvt; auto.
    + rewrite hd_app; auto.
Qed.
Lemma plsp_le p n z : z <= last_sp p -> z <= plsp p n.
Proof. unfold plsp. destruct (first_el p && y_map n); lia. Qed.

Theorem rtree_ok : (forall t, R_t t) /\ (forall es, R_e es) /\ (forall l, R_i l).
Proof.
  apply rtree_mut.
  - intros v. exact I.
  - intros d es IH. exact IH.
  - intros d l IH. exact IH.
  - intros p s c D i i0 b n rest u kvs A AT LI LB LS YC W OC GD O UK GE DS K NB. cbn [rlines_e rval_e some_r after_e]. rewrite app_nil_r, orb_false_r.
    exists p, s, D. split; [reflexivity|]. split; [apply chg_refl; auto|]. split; [exact O|]. split; [auto|]. split; [apply same_root_refl|exact K].
  - intros k t IHt r IHr p s c D i i0 b n rest u kvs A AT LI LB LS YC W OC GD O UK (PK & GT & GR) DS K NB.
    change (rlines_e i (RCons k t r)) with (rlines_t i k t ++ rlines_e i r).
    change (rval_e E A (RCons k t r)) with ((k, rval_t E A t) :: rval_e E (after_t E A t) r).
    change (after_e E A (RCons k t r)) with (after_e E (after_t E A t) r). cbn [some_r]. rewrite orb_true_r. cbn [keys_r] in DS.
    pose proof (absent E kvs k _ DS) as FK.
    assert (DS' : distinct same (map fst (kvs ++ [(k, rval_t E A t)]) ++ keys_r r)) by (rewrite map_app, <- app_assoc; exact DS).
    assert (NI : y_sp n < Z.of_nat i) by (destruct AT as (pre & _ & Q & _); exact Q).
    assert (FST : exists p1 s1 D1, run p s (rlines_t i k t) = Ok (None, p1, s1) /\ chg s c D s1 D1 /\
       own (hp s1) (y_v n) (VObject true (kvs ++ [(k, rval_t E A t)])) D1 /\ atl p1 (Z.of_nat i) i0 n rest /\ Z.of_nat i <= last_sp p1 /\
       same_root p p1 /\ known s1 (uses p1) (after_t E A t)).
    { destruct t as [v|d es|d l].
      - change (good_s v) in GT. change (rlines_t i k (RS v)) with [flat_line i (k, text v)]. change (rval_t E A (RS v)) with (mean E A v).
        change (after_t E A (RS v)) with (note E A v).
        destruct (entry_ref p s c D i i0 n rest u kvs k v A AT YC W OC GD O UK FK PK GT K) as (x & p1 & s1 & D1 & H & C & O1 & ST & LS1 & KP & K1).
        { destruct NB as [NB|NB]; [left|right; exact NB]. intros a ->. exact NB. }
        exists p1, s1, D1. split; [rewrite (run_cons E G pick cf _ _ _ _ _ _ (flat_len G i k (text v) PK) H); reflexivity|].
        split; [exact C|]. split; [exact O1|]. split; [eapply at_pushed; eauto|]. split; [lia|]. split; [exact KP|exact K1].
      - change (rgood_e E same A es /\ distinct same (keys_r es) /\ not_bool_alias A es) in GT.
        change (rlines_t i k (RM d es)) with (key_line i k :: rlines_e (i + S d) es).
        change (rval_t E A (RM d es)) with (VObject (some_r es) (rval_e E A es)). change (R_e es) in IHt. destruct GT as (GT & DE & NBE).
        change (after_t E A (RM d es)) with (after_e E A es).
        destruct (entry_key' p s c D i i0 n rest u kvs k A AT YC W OC GD O UK FK PK K) as (x & p1 & s1 & H & SN & ST & LS1 & KP & K1).
        destruct (fill_new _ _ _ _ _ _ _ _ W SN) as (W1 & X5 & XL & CL & OC1 & FILL). specialize (OC1 OC GD).
        assert (OX : own (hp s1) x (VObject false []) (fun z => z = x)) by (apply (own_empty _ _ KObj); auto).
        destruct (IHt p1 s1 c (fun z => z = x) (i + S d)%nat (Z.of_nat (i + S d)) (Z.of_nat i) (mkNode false (Z.of_nat i) x) (n :: rest) false [] A)
          as (p2 & s2 & D2 & H2 & C2 & O2 & [AT2 LS2] & KP2 & K2); auto.
        + apply at_opened; auto. lia.
        + lia.
        + lia.
        + lia.
        + rewrite (proj1 KP). exact YC.
        + intros z ->. auto.
        + destruct (FILL s2 D2 _ C2 O2) as (D3 & C3 & O3). exists p2, s2, D3.
          split; [rewrite (run_cons E G pick cf _ _ _ _ _ _ (key_len G i k PK) H); exact H2|]. split; [exact C3|]. split; [exact O3|].
          split; [|split; [exact LS2|split; [exact (same_root_trans _ _ _ KP KP2)|exact K2]]].
          eapply (at_lower p2 (Z.of_nat i) (Z.of_nat (i + S d))); eauto; lia.
      - change (l <> LNil /\ rgood_i E same A l) in GT. change (rlines_t i k (RL d l)) with (key_line i k :: rlines_i (i + S d) l).
        change (rval_t E A (RL d l)) with (VArray (rval_i E A l)). change (R_i l) in IHt. destruct GT as [NL GT].
        change (after_t E A (RL d l)) with (after_i E A l).
        destruct (entry_key' p s c D i i0 n rest u kvs k A AT YC W OC GD O UK FK PK K) as (x & p1 & s1 & H & SN & ST & LS1 & KP & K1).
        destruct (fill_new _ _ _ _ _ _ _ _ W SN) as (W1 & X5 & XL & CL & OC1 & FILL). specialize (OC1 OC GD).
        assert (AT1 : atl p1 (Z.of_nat (i + S d)) (Z.of_nat (i + S d)) (mkNode false (Z.of_nat i) x) (n :: rest)) by (apply at_opened; auto; lia).
        assert (GX : good s1 (fun z => z = x)) by (intros z ->; auto).
        pose proof (chg_reset G s1 c (fun z => z = x) x TArray W1 GX eq_refl) as CR.
        pose proof (ritems_reset p1 s1 (i + S d) l _ _ _ A AT1 NL GT (proj1 CL) X5) as RS0. cbn [y_v] in RS0.
        unfold Reset in RS0. rewrite (proj2 (ReadOnly_ge _) X5) in RS0.
        assert (K1' : known (set_cell s1 x (reset_cell (hp s1 x) TArray)) (uses p1) A).
        { apply (known_frame s1 _ _ _ x K1); auto; [|left; apply CL]. intros z _ NZ. cbn [set_cell hp]. apply upd_other. auto. }
        set (s1' := set_cell s1 x _) in *.
        assert (OX : own (hp s1') x (VArray []) (fun z => z = x)).
        { apply (own_empty _ _ KArr); auto. subst s1'. cbn [set_cell hp]. rewrite upd_same. apply clean_reset. }
        destruct (IHt p1 s1' c (fun z => z = x) (i + S d)%nat (Z.of_nat i) (mkNode false (Z.of_nat i) x) (n :: rest) [] A AT1 ltac:(lia) ltac:(lia) (eq_trans (proj1 KP) YC)
                    (ch_wf _ _ _ _ _ CR) (chg_cache _ _ _ _ _ CR W1 GX OC1) (chg_good _ _ _ _ _ CR) OX GT K1')
          as (p2 & s2 & D2 & H2 & C2 & O2 & [AT2 LS2] & KP2 & K2).
        { destruct (FILL s2 D2 _ (chg_trans _ _ _ _ _ _ _ W1 CR C2) O2) as (D3 & C3 & O3). exists p2, s2, D3.
          split; [rewrite (run_cons E G pick cf _ _ _ _ _ _ (key_len G i k PK) H), RS0; exact H2|]. split; [exact C3|]. split; [exact O3|].
          split; [|split; [exact LS2|split; [exact (same_root_trans _ _ _ KP KP2)|exact K2]]].
          eapply (at_lower p2 (Z.of_nat i) (Z.of_nat (i + S d))); eauto; lia. } }
    destruct FST as (p1 & s1 & D1 & H1 & C1 & O1 & AT1 & LS1 & KP1 & K1).
    destruct (IHr p1 s1 c D1 i i0 b n rest true (kvs ++ [(k, rval_t E A t)]) (after_t E A t)) as (p2 & s2 & D2 & H2 & C2 & O2 & AT2 & KP2 & K2); auto.
    + lia.
    + rewrite (proj1 KP1). exact YC.
    + apply C1.
    + exact (chg_cache _ _ _ _ _ C1 W GD OC).
    + exact (chg_good _ _ _ _ _ C1).
    + right. apply plsp_le. exact LS1.
    + exists p2, s2, D2. split; [rewrite (run_then E G pick cf _ _ _ _ _ _ H1); exact H2|]. split; [exact (chg_trans _ _ _ _ _ _ _ W C1 C2)|].
      split; [|split; [exact AT2|split; [exact (same_root_trans _ _ _ KP1 KP2)|exact K2]]].
      cbn [orb] in O2. rewrite <- app_assoc in O2. exact O2.
  - intros p s c D i b n rest vs A AT LB LS YC W OC GD O GI K. cbn [rlines_i rval_i after_i]. rewrite app_nil_r.
    exists p, s, D. split; [reflexivity|]. split; [apply chg_refl; auto|]. split; [exact O|]. split; [auto|]. split; [apply same_root_refl|exact K].
  - intros v r IHr p s c D i b n rest vs A AT LB LS YC W OC GD O (GS & NC & GR) K.
    change (rlines_i i (LVal v r)) with (item_line i (text v) :: rlines_i i r). change (rval_i E A (LVal v r)) with (mean E A v :: rval_i E (note E A v) r).
    change (after_i E A (LVal v r)) with (after_i E (note E A v) r).
    assert (NI : y_sp n < Z.of_nat i) by (destruct AT as (pre & _ & Q & _); exact Q).
    destruct (item_ref p s c D i _ n rest vs v A AT YC W OC GD O GS NC K) as (x & p1 & s1 & D1 & H1 & C1 & O1 & ST & LS1 & KP1 & K1).
    destruct (IHr p1 s1 c D1 i b n rest (vs ++ [mean E A v]) (note E A v)) as (p2 & s2 & D2 & H2 & C2 & O2 & AT2 & KP2 & K2); auto.
    + eapply at_pushed; eauto. lia.
    + lia.
    + rewrite (proj1 KP1). exact YC.
    + apply C1.
    + exact (chg_cache _ _ _ _ _ C1 W GD OC).
    + exact (chg_good _ _ _ _ _ C1).
    + exists p2, s2, D2. split; [rewrite (run_cons E G pick cf _ _ _ _ _ _ (item_len G i _) H1); exact H2|]. split; [exact (chg_trans _ _ _ _ _ _ _ W C1 C2)|].
      split; [|split; [exact AT2|split; [exact (same_root_trans _ _ _ KP1 KP2)|exact K2]]]. rewrite <- app_assoc in O2. exact O2.
  - intros k v es IHe r IHr p s c D i b n rest vs A AT LB LS YC W OC GD O (PK & GS & GE & DE & GR) K.
    change (rlines_i i (LMap k v es r)) with (item_line i (k ++ [58; 32] ++ text v) :: rlines_e (i + 2) es ++ rlines_i i r).
    change (rval_i E A (LMap k v es r)) with (VObject true ((k, mean E A v) :: rval_e E (note E A v) es) :: rval_i E (after_e E (note E A v) es) r).
    change (after_i E A (LMap k v es r)) with (after_i E (after_e E (note E A v) es) r).
    assert (NI : y_sp n < Z.of_nat i) by (destruct AT as (pre & _ & Q & _); exact Q).
    destruct (item_map_ref p s c D i _ n rest vs k v A AT YC W OC GD O PK GS K) as (el & x & p1 & s0 & s1 & De & H1 & SN & C1 & O1 & ST & LS1 & FE & KP1 & K1).
    destruct (fill_new _ _ _ _ _ _ _ _ W SN) as (W0 & X5 & XL & CL & OC0 & FILL). specialize (OC0 OC GD).
    assert (G0 : good s0 (fun z => z = el)) by (intros z ->; auto).
    destruct (IHe p1 s1 c De (i + 2)%nat (Z.of_nat i) (Z.of_nat i) (mkNode true (Z.of_nat i) el) (n :: rest) true [(k, mean E A v)] (note E A v))
      as (p2 & s2 & D2 & H2 & C2 & O2 & [AT2 LS2] & KP2 & K2); auto.
    + exists [mkNode true (Z.of_nat i) x]. split; [exact ST|]. split; [cbn [y_sp]; lia|]. split; [constructor; [cbn [y_sp]; lia|constructor]|].
      unfold lsp. rewrite ST, FE, LS1. cbn [y_map andb]. lia.
    + lia.
    + lia.
    + lia.
    + rewrite (proj1 KP1). exact YC.
    + apply C1.
    + exact (chg_cache _ _ _ _ _ C1 W0 G0 OC0).
    + exact (chg_good _ _ _ _ _ C1).
    + right. unfold plsp. rewrite FE, LS1. cbn [y_map andb]. lia.
    + destruct (FILL s2 D2 _ (chg_trans _ _ _ _ _ _ _ W0 C1 C2) O2) as (D3 & C3 & O3). cbn [orb app] in O3.
      destruct (IHr p2 s2 c D3 i b n rest (vs ++ [VObject true ((k, mean E A v) :: rval_e E (note E A v) es)]) (after_e E (note E A v) es))
        as (p4 & s4 & D4 & H4 & C4 & O4 & AT4 & KP4 & K4); auto.
      * eapply (at_lower p2 (Z.of_nat i) (Z.of_nat (i + 2))); eauto; cbn [y_sp]; lia.
      * lia.
      * rewrite (proj1 KP2), (proj1 KP1). exact YC.
      * apply C3.
      * exact (chg_cache _ _ _ _ _ C3 W GD OC).
      * exact (chg_good _ _ _ _ _ C3).
      * exists p4, s4, D4. split; [rewrite (run_cons E G pick cf _ _ _ _ _ _ (item_len G i _) H1), (run_then E G pick cf _ _ _ _ _ _ H2); exact H4|].
        split; [exact (chg_trans _ _ _ _ _ _ _ W C3 C4)|].
        split; [|split; [exact AT4|split; [exact (same_root_trans _ _ _ KP1 (same_root_trans _ _ _ KP2 KP4))|exact K4]]].
        rewrite <- app_assoc in O4. exact O4.
Qed.
End Ref.
