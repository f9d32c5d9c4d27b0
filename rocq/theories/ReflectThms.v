(** Importing Go values: proofs. *)
From Coq Require Import Permutation.
From Verif Require Import Base Values Tactics HeapModel MsgLoadModel ReflectModel ReflectInd HeapSpec MsgLoadSpec ReflectSpec
  HeapBase HeapConf HeapGet HeapCalls HeapObj HeapForce HeapTree HeapClone HeapMap HeapBuild HeapTyped.

(** ** What the import really makes of a Go value *)
Definition sc_tree (x : gscalar) : value :=
  match x with
  | SInt n | SUint n => VInt 0 (to_i64 (to_u64 n))
  | SStr b => VString b
  | SBool b => if b then VTrue else VFalse
  | SF32 v => VFloat v
  | SF64 v => VDouble v
  end.
Definition gather {A} (f : A -> option value) : list (bytes * A) -> list (bytes * value) :=
  fix go (l : list (bytes * A)) : list (bytes * value) :=
    match l with
    | [] => []
    | (k, x) :: r => match f x with Some v => (k, v) :: go r | None => go r end
    end.
Definition gatherl {A} (f : A -> option value) : list A -> list value :=
  fix go (l : list A) : list value :=
    match l with
    | [] => []
    | x :: r => match f x with Some v => v :: go r | None => go r end
    end.
Definition gatherf (f : bool -> bool -> goval -> option value) : list (bytes * bool * bool * goval) -> list (bytes * value) :=
  fix go (l : list (bytes * bool * bool * goval)) : list (bytes * value) :=
    match l with
    | [] => []
    | (k, ex, ifc, x) :: r => match f ex ifc x with Some v => (k, v) :: go r | None => go r end
    end.

Section Thms.
Variable E : env.
Variable G : nat -> nat.
Notation N := none_set.

Fixpoint tree (rv : bool) (g : goval) : option value :=
  match g with
  | GNil | GOther => None
  | GSc named x => if named then None else Some (sc_tree x)
  | GTime t => Some (VDateTime (x_delphi E t))
  | GBytes b => Some (VBinary 0 b)
  | GMap kvs => Some (obj_of (gather (tree false) kvs))
  | GMapStr kvs => Some (obj_of (gather (fun b => Some (VString b)) kvs))
  | GMapInt kvs => Some (obj_of (gather (fun n => Some (sc_tree (SInt n))) kvs))
  | GList l => Some (VArray (gatherl (tree false) l))
  | GStrs l => Some (VArray (gatherl (fun b => Some (VString b)) l))
  | GStruct fs => Some (obj_of (gatherf (fun ex ifc x =>
      if ifc then if ex then tree false x else None
      else match x with
           | GNilPtr _ => None
           | GSc _ y | GPtr (GSc _ y) => Some (sc_tree y)
           | GPtr x' => if ex then tree false x' else None
           | _ => if ex then tree false x else None
           end) fs))
  | GRMap ifc kvs =>
      match kvs with
      | [] => None
      | _ :: _ => Some (obj_of (gather (fun x =>
          if ifc then tree false x
          else match x with
               | GNilPtr _ => None
               | GSc _ y | GPtr (GSc _ y) => Some (sc_tree y)
               | GPtr x' => tree false x'
               | _ => tree false x
               end) kvs))
      end
  | GRSlice ifc l => Some (VArray (gatherl (tree (negb ifc)) l))
  | GPtr g' => if rv then tree true g' else if ptr_ignored g' then None else tree false g'
  | GNilPtr _ => if rv then Some VNull else None
  end.

(** ** Placing one value *)
Definition ready (s : st) (d : dest) : Prop :=
  match d with
  | DRoot _ => False
  | DKey r k => c_dt (hp s r) = TObject /\ find_key E (c_kvs (hp s r)) k = None /\
      (c_unesc (hp s r) = true \/ c_kvs (hp s r) = [])
  | DIdx r i => c_dt (hp s r) = TArray /\ zlen (c_arr (hp s r)) <= i
  end.
Definition added (d : dest) (p : ptr) (s s3 : st) : Prop :=
  match d with
  | DRoot _ => False
  | DKey r k => c_dt (hp s3 r) = TObject /\ c_unesc (hp s3 r) = true /\ c_kvs (hp s3 r) = c_kvs (hp s r) ++ [(k, p)]
  | DIdx r _ => c_dt (hp s3 r) = TArray /\ c_arr (hp s3 r) = c_arr (hp s r) ++ [p]
  end.
Record placed (s : st) (c : option nat) (d : dest) (p : ptr) (v : value) (s3 : st) : Prop := {
  pd_wf : wf s3;
  pd_fill : filled s c (at_loc d) s3;
  pd_kid : forall y, p = Some y -> kid s c (at_loc d) s3 y;
  pd_add : added d p s s3;
  pd_shows : shows (hp s3) p v;
  pd_tree : forall y, p = Some y -> treelike (hp s3) y }.
Definition usable (s : st) (c : option nat) (r : nat) : Prop :=
  wf s /\ ok_cache N s c /\ live s r /\ (5 <= r)%nat.

Lemma added_sees d p s s3 y : ready s d -> added d p s s3 -> sees (hp s3 (at_loc d)) y ->
  p = Some y \/ sees (hp s (at_loc d)) y.
Proof.
  destruct d as [l|l k|l i]; cbn [ready added at_loc]; [intros []| |].
  - intros (D & _) (D3 & _ & K). unfold sees. rewrite D, D3, K, map_app. intros Y. apply in_app_or in Y as [Y|[Y|[]]]; auto.
  - intros (D & _) (D3 & K). unfold sees. rewrite D, D3, K. intros Y. apply in_app_or in Y as [Y|[Y|[]]]; auto.
Qed.
Lemma added_puts d p s s3 : ready s d -> added d p s s3 ->
  puts (kid_ptrs (hp s (at_loc d))) p (kid_ptrs (hp s3 (at_loc d))).
Proof.
  unfold kid_ptrs. destruct d as [l|l k|l i]; cbn [ready added at_loc]; [intros []| |].
  - intros (D & _) (D3 & _ & K). rewrite D, D3, K, map_app. apply puts_app.
  - intros (D & _) (D3 & K). rewrite D, D3, K. apply puts_app.
Qed.

(** One step of filling a container. *)
Lemma place_step s1 c d p v s s3 : usable s1 c (at_loc d) -> grown s1 c (at_loc d) s -> ready s d ->
  placed s c d p v s3 ->
  grown s1 c (at_loc d) s3 /\
  (forall q u, (forall y, q = Some y -> sees (hp s (at_loc d)) y) -> shows (hp s) q u -> shows (hp s3) q u).
Proof.
  intros (W1 & OC & L1 & L5) GR0 RD [W3 F3 KX AD _ TX]. pose proof GR0 as [W F K BU].
  assert (OLD : forall y, sees (hp s (at_loc d)) y -> kid s1 c (at_loc d) s3 y /\ (forall z, reach (hp s) y z -> hp s3 z = hp s z)).
  { intros y Y. apply (kid_after G s1 c (at_loc d) s s3 y W L1 L5 F F3). auto. }
  split.
  - constructor; [exact W3|eapply filled_trans; eauto| |apply (bush_step G s1 c (at_loc d) s p s3); auto; apply added_puts; auto]. intros y Y.
    destruct (added_sees d p s s3 y RD AD Y) as [Q|Q]; [eapply kid_before; [exact F|]; auto|apply OLD; auto].
  - intros q u Q (w & R & LW). exists w. split; [|exact LW]. apply (rep_frame (hp s)); auto.
    intros z (y & QY & Z). apply (OLD y (Q y QY)); auto.
Qed.
Lemma grown_usable s1 c r s : usable s1 c r -> grown s1 c r s -> usable s c r.
Proof.
  intros (W & OC & L & L5) GR. split; [apply GR|]. split; [eapply grown_cache; eauto|]. split; [eapply grown_live; eauto|exact L5].
Qed.

(** A child that is stored first and filled afterwards. *)
Lemma grow_top s c d s2 x t sA sB s3 v : usable s c (at_loc d) -> filled s c (at_loc d) s2 -> wf s2 ->
  getValue G s2 c t = (x, sA) -> stored_at sA (at_loc d) (Some x) sB -> added d (Some x) s sB ->
  usable sB c x /\ hp sB x = hp sA x /\
  (grown sB c x s3 -> shows (hp s3) (Some x) v -> placed s c d (Some x) v s3).
Proof.
  set (r := at_loc d). intros (W & OC & L & L5) F2 W2 GV ST AD.
  assert (OC2 : ok_cache N s2 c).
  { apply (ok_cache_tr N N s s2); [|exact OC]. apply (fl_tr _ _ _ _ F2); auto. split; [apply L|intros []]. }
  pose proof (fl_lives _ _ _ _ F2 r L) as L2.
  destruct (get_base G s2 c t x sA W2 OC2 GV) as [B CL].
  assert (XR : x <> r) by (intros ->; apply (b_new _ _ _ _ B); auto).
  assert (HX : hp sB x = hp sA x) by (apply (so_frame _ _ _ _ ST); auto).
  assert (TR : forall P PC, inv P PC s -> ok_cache PC s c -> ok_loc P s r ->
     tr P PC s sB /\ ok_loc P sB x).
  { intros P PC I O K. pose proof (fl_tr _ _ _ _ F2 P PC I O K) as T0.
    destruct (b_tr _ _ _ _ B P PC (proj1 T0) (ok_cache_tr P PC _ _ _ T0 O)) as [T1 T2].
    pose proof (tr_trans P PC _ _ _ T0 T1) as T01.
    assert (T3 : tr P PC sA sB).
    { apply (so_tr _ _ _ _ ST); [apply T1|exact (ok_loc_tr P PC _ _ _ T01 K)|apply ok_ptr_some; exact T2]. }
    split; [exact (tr_trans P PC _ _ _ T01 T3)|exact (ok_loc_tr P PC _ _ _ T3 T2)]. }
  assert (OL : ok_loc N s r) by (split; [apply L|intros []]).
  destruct (TR N N W OC OL) as [TB OX].
  assert (WB : wf sB) by apply TB.
  assert (LB : live sB x) by (apply (so_live _ _ _ _ ST), (b_live _ _ _ _ B)).
  assert (LIV : forall z, live s z -> live sB z).
  { intros z Z. apply (so_live _ _ _ _ ST), (b_lives _ _ _ _ B), (fl_lives _ _ _ _ F2); auto. }
  assert (NX : ~ live s x) by (intros Z; apply (b_new _ _ _ _ B), (fl_lives _ _ _ _ F2); auto).
  assert (CF : forall P PC s0, conf P PC s0 s -> from_ok PC s0 c -> mine P s0 r -> conf P PC s0 sB /\ mine P s0 x).
  { intros P PC s0 C FO M. destruct (b_conf _ _ _ _ B P PC s0 (fl_conf _ _ _ _ F2 P PC s0 C FO M) FO) as [C1 M1].
    split; [|exact M1]. apply (so_conf _ _ _ _ ST); auto. }
  split; [split; [exact WB|split; [exact (ok_cache_tr N N _ _ _ TB OC)|split; [exact LB|apply B]]]|]. split; [exact HX|].
  intros [W3 F3 K3 B3] SH.
  assert (LR : live sB r) by auto.
  assert (HR : hp s3 r = hp sB r) by (apply (fl_frame _ _ _ _ F3); auto).
  constructor.
  - exact W3.
  - fold r. constructor.
    + intros z Z. apply (fl_lives _ _ _ _ F3); auto.
    + intros z Z Q. rewrite (fl_frame _ _ _ _ F3); [|auto|intros ->; auto].
      rewrite (so_frame _ _ _ _ ST) by auto. rewrite (b_frame _ _ _ _ B); [|apply (fl_lives _ _ _ _ F2); auto].
      apply (fl_frame _ _ _ _ F2); auto.
    + intros P PC s0 C FO M. destruct (CF P PC s0 C FO M). apply (fl_conf _ _ _ _ F3); auto.
    + intros P PC I O K. destruct (TR P PC I O K) as [T1 T2]. apply (tr_trans P PC _ _ _ T1).
      apply (fl_tr _ _ _ _ F3); [apply T1|exact (ok_cache_tr P PC _ _ _ T1 O)|exact T2].
  - intros y Q. injection Q as <-. fold r. constructor.
    + intros z R. apply reach_cases in R as [->|(y & Sy & R)].
      * right. split; [apply B|]. split; [exact NX|]. apply (fl_lives _ _ _ _ F3); auto.
      * destruct (kd_new _ _ _ _ _ (K3 y Sy) z R) as [Q|(Q1 & Q2 & Q3)]; [left; auto|right]. split; [auto|split; auto].
    + intros P PC s0 C FO M z R. destruct (CF P PC s0 C FO M) as [C1 M1]. apply reach_cases in R as [->|(y & Sy & R)]; [auto|].
      apply (kd_conf _ _ _ _ _ (K3 y Sy) P PC s0); auto.
    + intros P PC I O K z R. destruct (TR P PC I O K) as [T1 T2].
      pose proof (ok_cache_tr P PC _ _ _ T1 O) as O1. assert (I1 : inv P PC sB) by apply T1.
      apply reach_cases in R as [->|(y & Sy & R)].
      * exact (ok_loc_tr P PC _ _ _ (fl_tr _ _ _ _ F3 P PC I1 O1 T2) T2).
      * apply (kd_tr _ _ _ _ _ (K3 y Sy) P PC); auto.
  - subst r. clear - AD HR. destruct d; cbn [added at_loc] in *; [exact AD| |]; rewrite HR; exact AD.
  - exact SH.
  - intros y Q. injection Q as <-. apply treelike_kids; [exact B3|]. intros k Sk X.
    destruct (kd_new _ _ _ _ _ (K3 k Sk) x X) as [Y|(_ & Y & _)]; [|exact (Y LB)].
    exact (Nat.lt_irrefl x (Nat.lt_le_trans _ _ _ Y (b_5 _ _ _ _ B))).
Qed.

(** Obtaining the cell. *)
Lemma acq s c d t : usable s c (at_loc d) -> ready s d ->
  exists x sB, acquire E G s d t c = Ok (x, sB) /\ usable sB c x /\ clean (hp sB x) t /\
    forall s3 v, grown sB c x s3 -> shows (hp s3) (Some x) v -> placed s c d (Some x) v s3.
Proof.
  intros U RD. destruct d as [l|l k|l i]; [destruct RD| |].
  - destruct RD as (D & FK & UN). pose proof U as U'. destruct U' as (W & OC & L & L5). cbn [at_loc] in *.
    cbn [acquire]. unfold SetKeyCached. rewrite D. change (vt_eqb TObject TArray) with false. change (vt_eqb TObject TObject) with true.
    cbn [andb].
    assert (OI : obj_index E s l k = (None, set_cell s l (w_obj (hp s l) true (c_kvs (hp s l)) (c_spare (hp s l))))).
    { unfold obj_index, index_by_name. destruct UN as [UN|UN].
      - rewrite UN. cbn [negb andb]. unfold unescape_keys. rewrite FK. reflexivity.
      - rewrite UN. unfold unescape_keys. cbn [find_key map]. destruct (c_unesc (hp s l)); cbn [negb andb find_key map]; [reflexivity|].
        destruct (no_backslash k); reflexivity. }
    rewrite OI. set (s2 := set_cell _ _ _).
    assert (F2 : filled s c l s2).
    { apply (filled_set G); [|reflexivity]. intros P PC s' O. apply okc_obj; [exact O|]. intros y Y. apply O. left; exact Y. }
    assert (W2 : wf s2).
    { apply (fl_tr _ _ _ _ F2 N N W OC). split; [apply L|intros []]. }
    assert (H2 : hp s2 l = w_obj (hp s l) true (c_kvs (hp s l)) (c_spare (hp s l))) by (unfold s2; cbn [set_cell hp]; apply upd_same).
    destruct (getValue G s2 c t) as [x sA] eqn:GV.
    assert (OC2 : ok_cache N s2 c) by exact OC.
    destruct (get_base G s2 c t x sA W2 OC2 GV) as [B CL].
    assert (HA : hp sA l = hp s2 l) by (apply (b_frame _ _ _ _ B); exact L).
    set (sB := set_cell sA l (push_kv G (hp sA l) k (Some x))).
    assert (ST : stored_at sA l (Some x) sB).
    { apply (stored_set G); [apply push_fields|]. intros P PC A O. apply okc_push; auto. }
    assert (AD : added (DKey l k) (Some x) s sB).
    { cbn [added]. unfold sB. cbn [set_cell hp]. rewrite upd_same. destruct (push_fields G (hp sA l) k (Some x)) as (P1 & P2 & P3).
      rewrite P1, P2, P3, HA, H2. cbn [w_obj c_dt c_unesc c_kvs]. auto. }
    exists x, sB. split; [reflexivity|].
    destruct (grow_top s c (DKey l k) s2 x t sA sB sB VNull U F2 W2 GV ST AD) as (UB & HX & _).
    split; [exact UB|]. split; [rewrite HX; exact CL|]. intros s3 v.
    apply (grow_top s c (DKey l k) s2 x t sA sB s3 v U F2 W2 GV ST AD).
  - destruct RD as (D & LE). pose proof U as U'. destruct U' as (W & OC & L & L5). cbn [at_loc] in *.
    cbn [acquire]. unfold SetIndexCached. rewrite D. change (vt_eqb TArray TArray) with true. cbv zeta iota.
    assert (Q : (0 <=? i) && (i <? zlen (c_arr (hp s l))) = false).
    { apply andb_false_iff. right. apply Z.ltb_ge. exact LE. }
    rewrite Q. destruct (getValue G s c t) as [x sA] eqn:GV.
    destruct (get_base G s c t x sA W OC GV) as [B CL].
    assert (HA : hp sA l = hp s l) by (apply (b_frame _ _ _ _ B); exact L).
    set (sB := set_cell sA l (w_arr (hp sA l) (c_arr (hp sA l) ++ [Some x]))).
    pose proof (stored_append G sA l (Some x)) as ST. fold sB in ST.
    assert (AD : added (DIdx l i) (Some x) s sB).
    { cbn [added]. unfold sB. cbn [set_cell hp]. rewrite upd_same. cbn [w_arr c_dt c_arr]. rewrite HA. auto. }
    exists x, sB. split; [reflexivity|].
    destruct (grow_top s c (DIdx l i) s x t sA sB sB VNull U (filled_refl _ _ _) W GV ST AD) as (UB & HX & _).
    split; [exact UB|]. split; [rewrite HX; exact CL|]. intros s3 v.
    apply (grow_top s c (DIdx l i) s x t sA sB s3 v U (filled_refl _ _ _) W GV ST AD).
Qed.

(** Filling a cell without children. *)
Lemma grown_refl s c x t : usable s c x -> clean (hp s x) t -> grown s c x s.
Proof.
  intros (W & _) CL. constructor; [exact W|apply filled_refl| |apply bush_leaf; intros y Y; exact (clean_leaf _ _ y CL Y)].
  intros y Y. exfalso. exact (clean_leaf _ _ y CL Y).
Qed.
Lemma leaf_fill s c x nc : usable s c x -> c_own nc = c_own (hp s x) -> c_kvs nc = [] -> c_arr nc = [] ->
  grown s c x (set_cell s x nc).
Proof.
  intros (W & OC & L & L5) OW KV AR.
  assert (OK : forall P PC, inv P PC s -> ok_loc P s x -> tr P PC s (set_cell s x nc)).
  { intros P PC I O. apply tr_set_cell; auto; [|intros; lia]. split.
    - intros y [Y|Y]; [rewrite KV in Y; destruct Y|rewrite AR in Y; destruct Y].
    - rewrite OW. apply (own_ok P PC); auto. }
  constructor.
  - apply (OK N N W). split; [apply L|intros []].
  - constructor.
    + intros z Z. apply live_set_cell; auto.
    + intros z Z Q. cbn [set_cell hp]. apply upd_other; auto.
    + intros. apply conf_set; auto.
    + intros; auto.
  - intros y Y. exfalso. cbn [set_cell hp] in Y. rewrite upd_same in Y. unfold sees in Y.
    rewrite KV, AR in Y. destruct (c_dt nc); exact Y.
  - apply bush_leaf. intros y Y. cbn [set_cell hp] in Y. rewrite upd_same in Y. unfold sees in Y.
    rewrite KV, AR in Y. destruct (c_dt nc); exact Y.
Qed.
Lemma leaf_shows s x nc w v : rep (fun _ => nc) (Some x) w -> (forall y, ~ sees nc y) -> low w = v ->
  shows (hp (set_cell s x nc)) (Some x) v.
Proof.
  intros R NS Q. exists w. split; [|exact Q]. apply (rep_frame (fun _ => nc)); [exact R|].
  intros y (l & Q1 & Y). injection Q1 as <-.
  assert (y = x) by (apply reach_leaf in Y; [auto|exact (fun z => NS z)]). subst. cbn [set_cell hp]. apply upd_same.
Qed.

Lemma leaf_fill2 s c x s' nc : usable s c x -> grown s c x s' -> c_own nc = c_own (hp s' x) -> c_kvs nc = [] -> c_arr nc = [] ->
  grown s c x (set_cell s' x nc).
Proof.
  intros U GR OW KV AR. pose proof (leaf_fill s' c x nc (grown_usable _ _ _ _ U GR) OW KV AR) as [W F K B].
  constructor; [exact W|eapply filled_trans; [apply GR|exact F]| |exact B].
  intros y Y. exfalso. cbn [set_cell hp] in Y. rewrite upd_same in Y. unfold sees in Y.
  rewrite KV, AR in Y. destruct (c_dt nc); exact Y.
Qed.
Definition fills (s : st) c d (sB : st) x : Prop :=
  forall s3 v, grown sB c x s3 -> shows (hp s3) (Some x) v -> placed s c d (Some x) v s3.
Lemma leaf_placed s c d x sB s' nc w v : usable sB c x -> fills s c d sB x -> grown sB c x s' ->
  c_own nc = c_own (hp s' x) -> c_kvs nc = [] -> c_arr nc = [] ->
  rep (fun _ => nc) (Some x) w -> low w = v -> placed s c d (Some x) v (set_cell s' x nc).
Proof.
  intros U FI GR OW KV AR R LW. apply FI; [apply leaf_fill2; auto|]. eapply leaf_shows; eauto.
  intros y. unfold sees. rewrite KV, AR. destruct (c_dt nc); auto.
Qed.

(** What a call into a slot does: nothing, or it places the value. *)
Definition does (r : res st) (s : st) c d (o : option value) : Prop :=
  match o with
  | None => r = Ok s
  | Some v => exists p s3, r = Ok s3 /\ placed s c d p v s3
  end.

Lemma ensure_same s l t : c_dt (hp s l) = t -> ensure s l t = s.
Proof. intros <-. unfold ensure. destruct (c_dt (hp s l)); reflexivity. Qed.

Lemma put_int s c d n : usable s c (at_loc d) -> ready s d ->
  exists p s3, (do (r, s1) <- acquire E G s d TInt c; Ok (SetInt s1 r n)) = Ok s3 /\ placed s c d p (sc_tree (SInt n)) s3.
Proof.
  intros U RD. destruct (acq s c d TInt U RD) as (x & sB & Q & UB & CL & FI). rewrite Q. cbn [bind].
  eexists (Some x), _. split; [reflexivity|]. unfold SetInt. rewrite ensure_same by apply CL. cbv zeta.
  eapply leaf_placed; eauto using grown_refl; try (apply CL).
  - apply rep_int. apply CL.
  - cbn [low]. destruct CL as (_ & X & _). cbn [w_sv c_ext c_sv]. rewrite X. reflexivity.
Qed.
Lemma put_str s c d b : usable s c (at_loc d) -> ready s d ->
  exists p s3, (do (r, s1) <- acquire E G s d TString c; Ok (SetString s1 r b)) = Ok s3 /\ placed s c d p (VString b) s3.
Proof.
  intros U RD. destruct (acq s c d TString U RD) as (x & sB & Q & UB & CL & FI). rewrite Q. cbn [bind].
  eexists (Some x), _. split; [reflexivity|]. unfold SetString. rewrite ensure_same by apply CL. cbv zeta.
  eapply leaf_placed; eauto using grown_refl; try (apply CL).
  - apply rep_str. apply CL.
  - reflexivity.
Qed.
Lemma put_dbl s c d t n : usable s c (at_loc d) -> ready s d -> t = TDouble \/ t = TDateTime ->
  exists p s3, (do (r, s1) <- acquire E G s d t c; Ok (SetDouble s1 r n)) = Ok s3 /\
    placed s c d p (if vt_eqb t TDouble then VDouble n else VDateTime n) s3.
Proof.
  intros U RD T. destruct (acq s c d t U RD) as (x & sB & Q & UB & CL & FI). rewrite Q. cbn [bind].
  eexists (Some x), _. split; [reflexivity|]. unfold SetDouble. rewrite not_shared by apply UB.
  assert (is_dbl (c_dt (hp sB x)) = true) as -> by (destruct CL as (-> & _); destruct T as [-> | ->]; reflexivity). cbv zeta.
  eapply leaf_placed; eauto using grown_refl; try (apply CL).
  - instantiate (1 := if vt_eqb t TDouble then VDouble n else VDateTime n).
    destruct CL as (D & _). destruct T as [-> | ->].
    + change (vt_eqb TDouble TDouble) with true. apply (rep_dbl (fun _ => w_sv (hp sB x) n) x); exact D.
    + change (vt_eqb TDateTime TDouble) with false. apply (rep_dat (fun _ => w_sv (hp sB x) n) x); exact D.
  - destruct T as [-> | ->]; reflexivity.
Qed.
Lemma low_float a n : 0 <= n < 2^32 -> low (VFloat (a / 2^32 * 2^32 + n)) = VFloat n.
Proof. intros R. cbn [low]. rewrite Z.add_comm, Z.mod_add by lia. rewrite Z.mod_small by lia. reflexivity. Qed.
Lemma put_flt s c d t n : usable s c (at_loc d) -> ready s d -> 0 <= n < 2^32 ->
  exists p s3, (do (r, s1) <- acquire E G s d t c; Ok (SetFloat s1 r n)) = Ok s3 /\ placed s c d p (VFloat n) s3.
Proof.
  intros U RD RG. destruct (acq s c d t U RD) as (x & sB & Q & UB & CL & FI). rewrite Q. cbn [bind].
  eexists (Some x), _. split; [reflexivity|]. unfold SetFloat. rewrite not_shared by apply UB. cbv zeta.
  assert (X : grown sB c x (ensure sB x TFloat) /\ clean (hp (ensure sB x TFloat) x) TFloat).
  { unfold ensure. destruct (vt_eqb (c_dt (hp sB x)) TFloat) eqn:D.
    - apply HeapBase.vt_eqb_eq in D. split; [eapply grown_refl; eauto|]. split; [exact D|apply CL].
    - unfold Reset. rewrite not_shared by apply UB. split; [apply leaf_fill; auto|].
      cbn [set_cell hp]. rewrite upd_same. apply clean_reset. }
  destruct X as [GR CL']. eapply leaf_placed; eauto; try (apply CL').
  - apply rep_flt. apply CL'.
  - apply low_float; auto.
Qed.
Lemma put_bin s c d b : usable s c (at_loc d) -> ready s d ->
  exists p s3, (do (r, s1) <- acquire E G s d TBinary c; Ok (SetBinary s1 r b)) = Ok s3 /\ placed s c d p (VBinary 0 b) s3.
Proof.
  intros U RD. destruct (acq s c d TBinary U RD) as (x & sB & Q & UB & CL & FI). rewrite Q. cbn [bind].
  eexists (Some x), _. split; [reflexivity|]. unfold SetBinary. destruct CL as (D & CL). rewrite D.
  eapply leaf_placed; eauto using grown_refl; try (apply CL).
  - apply (grown_refl sB c x TBinary); auto. split; auto.
  - apply rep_bin. exact D.
  - cbn [low w_bin c_ext c_bin]. destruct CL as (-> & _). reflexivity.
Qed.
Lemma put_null s c d : usable s c (at_loc d) -> ready s d ->
  exists p s3, (do (_, s1) <- acquire E G s d TNull c; Ok s1) = Ok s3 /\ placed s c d p VNull s3.
Proof.
  intros U RD. destruct (acq s c d TNull U RD) as (x & sB & Q & UB & CL & FI). rewrite Q. cbn [bind].
  exists (Some x), sB. split; [reflexivity|]. apply FI; [eapply grown_refl; eauto|].
  exists VNull. split; [apply rep_null; apply CL|reflexivity].
Qed.
Lemma put_bool s c d b : usable s c (at_loc d) -> ready s d ->
  exists p s3, put_scalar E G s d (SBool b) c = Ok s3 /\ placed s c d p (if b then VTrue else VFalse) s3.
Proof.
  intros (W & OC & L & L5) RD. set (l := if b then loc_true else loc_false).
  assert (L' : (l < 5)%nat) by (unfold l, loc_true, loc_false; destruct b; lia).
  assert (SH : shows (hp s) (Some l) (if b then VTrue else VFalse)).
  { exists (if b then VTrue else VFalse). pose proof (i_const _ _ _ W l L') as D. unfold l in *.
    destruct b; (split; [constructor; exact D|reflexivity]). }
  exists (Some l).
  assert (X : forall s3, stored_at s (at_loc d) (Some l) s3 -> added d (Some l) s s3 -> placed s c d (Some l) (if b then VTrue else VFalse) s3).
  { intros s3 ST AD. destruct (shared_const s c l _ W L' SH) as (w & LW & CL).
    destruct (fill_gen G s c (at_loc d) w l s s3 W OC L L5 CL ST) as (A & B & C & D & T).
    constructor; auto; [intros y Q; injection Q as <-; exact C| |intros y Q; injection Q as <-; exact T]. exists w. auto. }
  destruct d as [r|r k|r i]; [destruct RD| |]; cbn [at_loc put_scalar] in *.
  - destruct RD as (D & FK & UN). exists (SetKeyValue E G s r k (Some l)). split; [reflexivity|].
    apply X; [apply stored_key; auto|]. cbn [added].
    unfold SetKeyValue. rewrite D. change (vt_eqb TObject TArray) with false. change (vt_eqb TObject TObject) with true. cbn [andb].
    assert (OI : obj_index E s r k = (None, set_cell s r (w_obj (hp s r) true (c_kvs (hp s r)) (c_spare (hp s r))))).
    { unfold obj_index, index_by_name. destruct UN as [UN|UN].
      - rewrite UN. cbn [negb andb]. unfold unescape_keys. rewrite FK. reflexivity.
      - rewrite UN. unfold unescape_keys. cbn [find_key map]. destruct (c_unesc (hp s r)); cbn [negb andb find_key map]; [reflexivity|].
        destruct (no_backslash k); reflexivity. }
    rewrite OI. cbn [set_cell hp]. rewrite !upd_same.
    destruct (push_fields G (w_obj (hp s r) true (c_kvs (hp s r)) (c_spare (hp s r))) k (Some l)) as (P1 & P2 & P3).
    rewrite P1, P2, P3. cbn [w_obj c_dt c_unesc c_kvs]. auto.
  - destruct RD as (D & LE). exists (SetIndexValue s r i (Some l)). split; [reflexivity|].
    assert (Q : SetIndexValue s r i (Some l) = set_cell s r (w_arr (hp s r) (c_arr (hp s r) ++ [Some l]))).
    { unfold SetIndexValue. rewrite D. change (vt_eqb TArray TArray) with true. cbv zeta iota.
      destruct ((0 <=? i) && (i <? zlen (c_arr (hp s r)))) eqn:Z; [lia|reflexivity]. }
    rewrite Q. apply X; [apply (stored_append G)|]. cbn [added set_cell hp]. rewrite upd_same. auto.
Qed.
Lemma put_scalar_slot s c d x : usable s c (at_loc d) -> ready s d -> in_type x ->
  exists p s3, put_scalar E G s d x c = Ok s3 /\ placed s c d p (sc_tree x) s3.
Proof.
  intros U RD T. destruct x as [n|n|b|b|v|v]; try (apply put_bool; auto).
  all: destruct d as [r|r k|r i]; [destruct RD| |]; cbn [put_scalar].
  all: try (apply put_int; auto); try (apply put_str; auto); try (apply put_flt; auto).
  all: apply (put_dbl _ _ _ TDouble); auto.
Qed.
Lemma put_kind_slot fld s c r k x : usable s c r -> ready s (DKey r k) -> in_type x -> (fld = true -> not_uint x) ->
  exists p s3, put_kind E G fld s r k x c = Ok s3 /\ placed s c (DKey r k) p (sc_tree x) s3.
Proof.
  intros U RD T NU. destruct x as [n|n|b|b|v|v]; unfold put_kind; try (apply put_scalar_slot; auto).
  - destruct fld; [destruct (NU eq_refl)|]. apply (put_int s c (DKey r k)); auto.
  - apply (put_flt s c (DKey r k)); auto.
Qed.

(** ** The loops *)
Lemma some_keys_app {A} (a : list A) x : some_keys (a ++ [x]) = true.
Proof. destruct a; reflexivity. Qed.
Lemma kvR_keys h l (done : list (bytes * value)) k p : Forall2 (kvR (shows h)) l done -> In (k, p) l -> exists v, In (k, v) done.
Proof.
  intros F. induction F as [|[k1 p1] [k2 v2] l m [Q _] F IH]; intros []; cbn [fst] in *.
  - injection H as -> ->. subst. exists v2. left; auto.
  - destruct (IH H) as [v V]. exists v. right; auto.
Qed.
Lemma keys_loop {A} (f : st -> bytes -> A -> res st) (tv : A -> option value) sB c x kvs : usable sB c x -> clean (hp sB x) TObject ->
  (forall k a s, In (k, a) kvs -> usable s c x -> ready s (DKey x k) -> does (f s k a) s c (DKey x k) (tv a)) ->
  no_clash E kvs ->
  exists s', over_keys f kvs sB = Ok s' /\ grown sB c x s' /\ shows (hp s') (Some x) (obj_of (gather tv kvs)).
Proof.
  intros U CL H NC.
  assert (GO : forall kvs s done, grown sB c x s -> c_dt (hp s x) = TObject -> c_unesc (hp s x) = some_keys done ->
     Forall2 (kvR (shows (hp s))) (c_kvs (hp s x)) done ->
     (forall k a s, In (k, a) kvs -> usable s c x -> ready s (DKey x k) -> does (f s k a) s c (DKey x k) (tv a)) ->
     no_clash E kvs -> (forall k a k' v, In (k, a) kvs -> In (k', v) done -> key_match E k' k = false) ->
     exists s', over_keys f kvs s = Ok s' /\ grown sB c x s' /\ shows (hp s') (Some x) (obj_of (done ++ gather tv kvs))).
  { clear H NC kvs CL. induction kvs as [|[k a] kvs IH]; intros s done GR D UN F H NC AP.
    - exists s. split; [reflexivity|]. split; [exact GR|]. rewrite app_nil_r. apply shows_obj; auto.
    - pose proof (grown_usable _ _ _ _ U GR) as US.
      assert (RD : ready s (DKey x k)).
      { cbn [ready]. split; [exact D|]. split.
        - apply find_key_none'. intros k' p I. destruct (kvR_keys _ _ _ _ _ F I) as [v V]. eapply AP; [left; reflexivity|exact V].
        - rewrite UN. destruct done; [right; inversion F; auto|left; reflexivity]. }
      pose proof (H k a s (or_introl eq_refl) US RD) as DO. inversion NC as [|? ? N1 N2]; subst.
      cbn [over_keys gather]. change ((fix go (l : list (bytes * A)) : list (bytes * value) :=
         match l with [] => [] | (k0, x0) :: r => match tv x0 with Some v => (k0, v) :: go r | None => go r end end) kvs) with (gather tv kvs).
      change ((fix go (kvs0 : list (bytes * A)) (s0 : st) {struct kvs0} : res st :=
         match kvs0 with [] => Ok s0 | (k0, x0) :: r => do s1 <- f s0 k0 x0; go r s1 end) kvs) with (over_keys f kvs).
      destruct (tv a) as [v|] eqn:TV; cbn [does] in DO.
      + destruct DO as (p & s3 & Q & PL). rewrite Q. cbn [bind].
        destruct (place_step sB c (DKey x k) p v s s3 U GR RD PL) as [GR3 OLD]. cbn [at_loc] in GR3, OLD.
        destruct (pd_add _ _ _ _ _ _ PL) as (D3 & UN3 & KV3).
        destruct (IH s3 (done ++ [(k, v)]) GR3 D3) as (s' & Q' & GR' & SH).
        * rewrite UN3. symmetry. apply some_keys_app.
        * rewrite KV3. apply Forall2_app.
          -- eapply Forall2_impl_in; [exact F|]. intros [k1 p1] [k2 v2] I [E1 E2]. split; [exact E1|]. cbn [snd] in *.
             apply OLD; [|exact E2]. intros y ->. unfold sees. rewrite D. change (Some y) with (snd (k1, Some y)). apply in_map; auto.
          -- constructor; [split; [reflexivity|apply PL]|constructor].
        * intros k' a' s0 I. apply H. right; auto.
        * exact N2.
        * intros k1 a1 k2 v2 I J. apply in_app_or in J as [J|[J|[]]]; [eapply AP; [right; exact I|exact J]|].
          injection J as <- <-. rewrite Forall_forall in N1. apply (N1 _ I).
        * exists s'. split; [exact Q'|]. split; [exact GR'|]. rewrite <- app_assoc in SH. exact SH.
      + rewrite DO. cbn [bind]. apply (IH s done); auto.
        * intros k' a' s0 I. apply H. right; auto.
        * intros k1 a1 k2 v2 I J. eapply AP; [right; exact I|exact J]. }
  destruct (GO kvs sB [] (grown_refl _ _ _ _ U CL)) as (s' & Q & GR & SH); auto.
  - apply CL.
  - apply CL.
  - destruct CL as (_ & _ & _ & -> & _). constructor.
  - intros ? ? ? ? _ [].
  - exists s'. auto.
Qed.
Lemma list_loop {A} (f : st -> Z -> A -> res st) (tv : A -> option value) sB c x l : usable sB c x -> clean (hp sB x) TArray ->
  (forall i a s, In a l -> usable s c x -> ready s (DIdx x i) -> does (f s i a) s c (DIdx x i) (tv a)) ->
  exists s', over_list f 0 l sB = Ok s' /\ grown sB c x s' /\ shows (hp s') (Some x) (VArray (gatherl tv l)).
Proof.
  intros U CL H.
  assert (GO : forall l s i done, grown sB c x s -> c_dt (hp s x) = TArray -> zlen (c_arr (hp s x)) <= i ->
     Forall2 (shows (hp s)) (c_arr (hp s x)) done ->
     (forall i a s, In a l -> usable s c x -> ready s (DIdx x i) -> does (f s i a) s c (DIdx x i) (tv a)) ->
     exists s', over_list f i l s = Ok s' /\ grown sB c x s' /\ shows (hp s') (Some x) (VArray (done ++ gatherl tv l))).
  { clear H l CL. induction l as [|a l IH]; intros s i done GR D LE F H.
    - exists s. split; [reflexivity|]. split; [exact GR|]. rewrite app_nil_r. apply shows_arr; auto.
    - pose proof (grown_usable _ _ _ _ U GR) as US.
      assert (RD : ready s (DIdx x i)) by (split; auto).
      pose proof (H i a s (or_introl eq_refl) US RD) as DO.
      cbn [over_list gatherl]. change ((fix go (l0 : list A) : list value :=
         match l0 with [] => [] | x0 :: r => match tv x0 with Some v => v :: go r | None => go r end end) l) with (gatherl tv l).
      change ((fix go (i0 : Z) (l0 : list A) (s0 : st) {struct l0} : res st :=
         match l0 with [] => Ok s0 | x0 :: r => do s1 <- f s0 i0 x0; go (i0 + 1) r s1 end) (i + 1) l) with (over_list f (i + 1) l).
      destruct (tv a) as [v|] eqn:TV; cbn [does] in DO.
      + destruct DO as (p & s3 & Q & PL). rewrite Q. cbn [bind].
        destruct (place_step sB c (DIdx x i) p v s s3 U GR RD PL) as [GR3 OLD]. cbn [at_loc] in GR3, OLD.
        destruct (pd_add _ _ _ _ _ _ PL) as (D3 & KV3).
        destruct (IH s3 (i + 1) (done ++ [v]) GR3 D3) as (s' & Q' & GR' & SH).
        * rewrite KV3. unfold zlen in *. rewrite app_length. cbn [List.length]. lia.
        * rewrite KV3. apply Forall2_app.
          -- eapply Forall2_impl_in; [exact F|]. intros p1 v1 I E2.
             apply OLD; [|exact E2]. intros y ->. unfold sees. rewrite D. auto.
          -- constructor; [apply PL|constructor].
        * intros k' a' s0 I. apply H. right; auto.
        * exists s'. split; [exact Q'|]. split; [exact GR'|]. rewrite <- app_assoc in SH. exact SH.
      + rewrite DO. cbn [bind]. apply (IH s (i + 1) done); auto; [lia|].
        intros k' a' s0 I. apply H. right; auto. }
  destruct (GO l sB 0 [] (grown_refl _ _ _ _ U CL)) as (s' & Q & GR & SH); auto.
  - apply CL.
  - destruct CL as (_ & _ & _ & _ & _ & _ & ->). unfold zlen; cbn; lia.
  - destruct CL as (_ & _ & _ & _ & _ & _ & ->). constructor.
  - exists s'. auto.
Qed.
Definition fld (f : bytes * bool * bool * goval) : bytes * (bool * bool * goval) :=
  match f with (k, ex, ifc, x) => (k, (ex, ifc, x)) end.
Lemma fields_keys f fs s : over_fields f fs s =
  over_keys (fun s k a => f s k (fst (fst a)) (snd (fst a)) (snd a)) (map fld fs) s.
Proof.
  revert s. induction fs as [|[[[k ex] ifc] x] fs IH]; intros s; [reflexivity|]. cbn [map fld].
  cbn [over_fields over_keys fst snd]. destruct (f s k ex ifc x); cbn [bind]; auto.
Qed.
Lemma fields_gather f fs : gatherf f fs = gather (fun a => f (fst (fst a)) (snd (fst a)) (snd a)) (map fld fs).
Proof.
  induction fs as [|[[[k ex] ifc] x] fs IH]; [reflexivity|]. cbn [map fld gatherf gather fst snd].
  destruct (f ex ifc x); [f_equal|]; apply IH.
Qed.
Lemma no_clash_map {A B} (f : A -> B) (kvs : list (bytes * A)) : no_clash E (map (fun kv => (fst kv, f (snd kv))) kvs) <-> no_clash E kvs.
Proof.
  unfold no_clash. induction kvs as [|[k x] kvs IH]; cbn [map fst snd]; [split; constructor|].
  split; intros H; inversion H as [|? ? H1 H2]; subst; constructor; try (apply IH; auto);
    rewrite Forall_forall in *; intros [k' x'] I.
  - apply (H1 (k', f x')). change (k', f x') with ((fun kv => (fst kv, f (snd kv))) (k', x')). apply in_map; auto.
  - apply in_map_iff in I as ([k1 x1] & Q & I). injection Q as <- <-. apply (H1 _ I).
Qed.
Lemma no_clash_fld fs : no_clash E (map name_of fs) -> no_clash E (map fld fs).
Proof.
  intros H. apply (no_clash_map (fun a => snd a)). rewrite map_map.
  replace (map _ fs) with (map name_of fs); auto. apply map_ext. intros [[[k ex] ifc] x]. reflexivity.
Qed.

(** The object or array in a slot. *)
Lemma obj_slot {A} (f : nat -> st -> bytes -> A -> res st) (tv : A -> option value) s c d kvs : usable s c (at_loc d) -> ready s d ->
  (forall x k a s, In (k, a) kvs -> usable s c x -> ready s (DKey x k) -> does (f x s k a) s c (DKey x k) (tv a)) ->
  no_clash E kvs ->
  does (do (r, s1) <- acquire E G s d TObject c; over_keys (f r) kvs s1) s c d (Some (obj_of (gather tv kvs))).
Proof.
  intros U RD H NC. destruct (acq s c d TObject U RD) as (x & sB & Q & UB & CL & FI). rewrite Q. cbn [bind].
  destruct (keys_loop (f x) tv sB c x kvs UB CL) as (s' & Q' & GR & SH); auto.
  cbn [does]. exists (Some x), s'. split; [exact Q'|]. apply FI; auto.
Qed.
Lemma arr_slot {A} (f : nat -> st -> Z -> A -> res st) (tv : A -> option value) s c d l : usable s c (at_loc d) -> ready s d ->
  (forall x i a s, In a l -> usable s c x -> ready s (DIdx x i) -> does (f x s i a) s c (DIdx x i) (tv a)) ->
  does (do (r, s1) <- acquire E G s d TArray c; over_list (f r) 0 l s1) s c d (Some (VArray (gatherl tv l))).
Proof.
  intros U RD H. destruct (acq s c d TArray U RD) as (x & sB & Q & UB & CL & FI). rewrite Q. cbn [bind].
  destruct (list_loop (f x) tv sB c x l UB CL) as (s' & Q' & GR & SH); auto.
  cbn [does]. exists (Some x), s'. split; [exact Q'|]. apply FI; auto.
Qed.

(** ** The conditions, element by element *)
Lemma conj_in {A} (P : A -> Prop) l :
  (fix go (l : list A) := match l with [] => True | x :: r => P x /\ go r end) l <-> Forall P l.
Proof.
  induction l as [|x l IH]; [split; constructor|]. rewrite IH. split; [intros [? ?]; constructor; auto|intros H; inversion H; auto].
Qed.
Definition field_tame (ex ifc : bool) (x : goval) : Prop :=
  if ifc then tame E false false x
  else match x with
       | GNilPtr _ => False
       | GSc _ y | GPtr (GSc _ y) => in_type y /\ not_uint y
       | GPtr x' => tame E false false x'
       | _ => tame E false false x
       end.
Definition elem_tame (ifc : bool) (x : goval) : Prop :=
  if ifc then tame E false false x
  else match x with
       | GNilPtr _ => False
       | GSc _ y | GPtr (GSc _ y) => in_type y
       | GPtr x' => tame E false false x'
       | _ => tame E false false x
       end.
Definition field_ok (f : bytes * bool * bool * goval) : Prop :=
  match f with (_, ex, ifc, x) => field_tame ex ifc x end.
Lemma tame_struct rv idx fs : tame E rv idx (GStruct fs) <-> no_clash E (map name_of fs) /\ Forall field_ok fs.
Proof.
  cbn [tame]. apply and_iff_compat_l. induction fs as [|[[[k ex] ifc] x] fs IH]; [split; constructor|].
  rewrite IH. split; [intros [? ?]; constructor; auto|intros H; inversion H; auto].
Qed.
Lemma tame_rmap rv idx ifc kvs : tame E rv idx (GRMap ifc kvs) <-> no_clash E kvs /\ Forall (fun kv => elem_tame ifc (snd kv)) kvs.
Proof.
  cbn [tame]. apply and_iff_compat_l. induction kvs as [|[k x] kvs IH]; [split; constructor|].
  rewrite IH. split; [intros [? ?]; constructor; auto|intros H; inversion H; auto].
Qed.

Definition main (g : goval) : Prop := forall rv idx s c d, tame E rv idx g -> usable s c (at_loc d) -> ready s d ->
  match d with DIdx _ _ => idx = true | _ => True end -> does (assign E G rv g s d c) s c d (tree rv g).

Lemma does_some r s c d v : (exists p s3, r = Ok s3 /\ placed s c d p v s3) -> does r s c d (Some v).
Proof. intros H; exact H. Qed.

Lemma main_all g : and_below main g.
Proof.
  induction g using goval_ind'.
  - split; [|intros; discriminate]. intros rv idx s c d T U RD DI. reflexivity.
  - split; [|intros; discriminate]. intros rv idx s c d T U RD DI. cbn [assign tree].
    destruct n; [reflexivity|]. apply put_scalar_slot; auto.
  - split; [|intros; discriminate]. intros rv idx s c d T U RD DI. cbn [assign tree].
    destruct d as [r|r k|r i]; [destruct RD| |]; apply (put_dbl _ _ _ TDateTime); auto.
  - split; [|intros; discriminate]. intros rv idx s c d T U RD DI. cbn [assign tree].
    destruct d as [r|r k|r i]; [destruct RD| |]; apply put_bin; auto.
  - split; [|intros; discriminate]. intros rv idx s c d [NC T] U RD DI. apply conj_in in T. cbn [assign tree].
    apply (obj_slot (fun r s k x => assign E G false x s (DKey r k) c) (tree false)); auto.
    intros x k a s0 I U0 R0. rewrite Forall_forall in H, T. apply (proj1 (H _ I) false false); auto; apply (T _ I).
  - split; [|intros; discriminate]. intros rv idx s c d NC U RD DI. cbn [assign tree].
    apply (obj_slot (fun r s k x => put_scalar E G s (DKey r k) (SStr x) c) (fun b => Some (VString b))); auto.
    intros x k a s0 I U0 R0. apply put_scalar_slot; cbn; auto.
  - split; [|intros; discriminate]. intros rv idx s c d [NC T] U RD DI. cbn [assign tree].
    apply (obj_slot (fun r s k x => put_scalar E G s (DKey r k) (SInt x) c) (fun n => Some (sc_tree (SInt n)))); auto.
    intros x k a s0 I U0 R0. rewrite Forall_forall in T. apply put_scalar_slot; auto; apply (T _ I).
  - split; [|intros; discriminate]. intros rv idx s c d T U RD DI. cbn [tame] in T. apply conj_in in T. cbn [assign tree].
    apply (arr_slot (fun r s i x => assign E G false x s (DIdx r i) c) (tree false)); auto.
    intros x i a s0 I U0 R0. rewrite Forall_forall in H, T. apply (proj1 (H _ I) false true); auto.
  - split; [|intros; discriminate]. intros rv idx s c d T U RD DI. cbn [assign tree].
    apply (arr_slot (fun r s i x => put_scalar E G s (DIdx r i) (SStr x) c) (fun b => Some (VString b))); auto.
    intros x i a s0 I U0 R0. apply put_scalar_slot; cbn; auto.
  - split; [|intros; discriminate]. intros rv idx s c d T U RD DI. apply tame_struct in T as [NC T].
    cbn [assign tree]. rewrite fields_gather.
    pose proof (no_clash_fld fs NC) as NC'. rewrite Forall_forall in H, T.
    match goal with |- does (bind _ (fun p => let (r, s1) := p in over_fields (@?f r) fs s1)) _ _ _ _ => set (ff := f) end.
    pose proof (obj_slot (fun r s k (a : bool * bool * goval) => ff r s k (fst (fst a)) (snd (fst a)) (snd a))
      (fun a : bool * bool * goval =>
         if snd (fst a) then if fst (fst a) then tree false (snd a) else None
         else match snd a with
           | GNilPtr _ => None
           | GSc _ y | GPtr (GSc _ y) => Some (sc_tree y)
           | GPtr x' => if fst (fst a) then tree false x' else None
           | _ => if fst (fst a) then tree false (snd a) else None
           end) s c d (map fld fs) U RD) as OS.
    match type of OS with ?A -> _ => assert (HA : A) end.
    { intros x k [[ex ifc] a] s0 I U0 R0. cbn [fst snd]. apply in_map_iff in I as ([[[k1 ex1] ifc1] a1] & Q & I). injection Q as <- <- <- <-.
      pose proof (T _ I) as TF. destruct (H _ I) as [M1 M2]. cbn [field_ok snd] in TF, M1, M2. unfold ff. unfold field_tame in TF.
      destruct ifc1.
      - destruct ex1; [apply (M1 false false); auto|reflexivity].
      - destruct a1 as [|n y|t|b|m|m|m|l|l|f1|i1 m|i1 l|g'|b1|]; try (destruct ex1; [apply (M1 false false); auto|reflexivity]).
        + destruct TF as [TF NU]. apply put_kind_slot; auto.
        + destruct g' as [|n y|t|b|m|m|m|l|l|f1|i1 m|i1 l|g'|b1|]; try (destruct ex1; [apply (M2 _ eq_refl false false); auto|reflexivity]).
          destruct TF as [TF NU]. apply put_kind_slot; auto.
        + destruct TF. }
    specialize (OS HA NC'). clear HA.
    destruct (acquire E G s d TObject c) as [[r s1]| | |]; cbn [bind] in *; auto.
    rewrite fields_keys. exact OS.
  - split; [|intros; discriminate]. intros rv idx s c d T U RD DI. apply tame_rmap in T as [NC T]. rewrite Forall_forall in H, T.
    cbn [assign tree]. destruct kvs as [|kv0 kvs0] eqn:QK; [reflexivity|]. rewrite <- QK in *. clear QK kv0 kvs0.
    apply (obj_slot (fun r s k x => if i then assign E G false x s (DKey r k) c
            else match x with
              | GNilPtr _ => Panic
              | GSc _ y | GPtr (GSc _ y) => put_kind E G false s r k y c
              | GPtr x' => assign E G false x' s (DKey r k) c
              | _ => assign E G false x s (DKey r k) c
              end)); auto.
    intros x k a s0 I U0 R0. pose proof (T _ I) as TF. destruct (H _ I) as [M1 M2]. cbn [snd] in TF, M1, M2. unfold elem_tame in TF.
    destruct i; [apply (M1 false false); auto|].
    destruct a as [|n y|t|b|m|m|m|l|l|f1|i1 m|i1 l|g'|b1|]; try (apply (M1 false false); auto; fail).
    + apply put_kind_slot; auto. discriminate.
    + destruct g' as [|n y|t|b|m|m|m|l|l|f1|i1 m|i1 l|g'|b1|]; try (apply (M2 _ eq_refl false false); auto; fail).
      apply put_kind_slot; auto. discriminate.
    + destruct TF.
  - split; [|intros; discriminate]. intros rv idx s c d T U RD DI. cbn [tame] in T. apply conj_in in T. cbn [assign tree].
    apply (arr_slot (fun r s j x => assign E G (negb i) x s (DIdx r j) c) (tree (negb i))); auto.
    intros x j a s0 I U0 R0. rewrite Forall_forall in H, T. apply (proj1 (H _ I) (negb i) true); auto.
  - split; [|intros g' Q; injection Q as <-; exact (proj1 IHg)]. intros rv idx s c d T U RD DI. cbn [tame] in T. cbn [assign tree].
    destruct rv; [apply (proj1 IHg true idx); auto|].
    destruct (ptr_ignored g); [reflexivity|].
    assert (NM : forall kvs, g <> GMapStr kvs) by (intros kvs ->; destruct T).
    assert (T' : tame E false idx g) by (destruct g; auto; destruct T).
    pose proof (proj1 IHg false idx s c d T' U RD DI) as M. destruct g; try exact M. destruct (NM kvs eq_refl).
  - split; [|intros; discriminate]. intros rv idx s c d T U RD DI. cbn [assign tree tame] in *.
    destruct rv; [apply put_null; auto|]. destruct T as [T|[-> ->]]; [discriminate|].
    destruct d; [reflexivity|reflexivity|discriminate].
  - split; [|intros; discriminate]. intros rv idx s c d T U RD DI. reflexivity.
Qed.
End Thms.
