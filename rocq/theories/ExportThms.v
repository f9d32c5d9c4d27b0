(** Export to maps and slices. *)
From Verif Require Import Base Values Tactics HeapModel HeapSpec GetModel ExportModel ExportSpec.

Section Export.
Variable E : env.
Variable T : tenv.
Variable F : st -> nat -> res bytes.
Notation settled := (settled E).

Lemma F2_len {A B} (R : A -> B -> Prop) a b : Forall2 R a b -> length a = length b.
Proof. induction 1; cbn [length]; congruence. Qed.

(** ** Effects *)
Lemma settled_refl s : settled s s.
Proof. split; auto. Qed.
Lemma settled_trans s1 s2 s3 : settled s1 s2 -> settled s2 s3 -> settled s1 s3.
Proof.
  intros (A & A1 & A2 & A3 & A4) (B & B1 & B2 & B3 & B4). split; [|rewrite B1, B2, B3, B4; auto].
  intros x. destruct (A x) as [QA|[DA QA]], (B x) as [QB|[DB QB]].
  - left. congruence.
  - right. rewrite QA in *. auto.
  - right. split; [exact DA|]. congruence.
  - exfalso. rewrite QA in DB. discriminate DB.
Qed.
Lemma settled_dt s s' x : settled s s' -> c_dt (hp s x) <> TRaw -> hp s' x = hp s x.
Proof. intros (A & _) D. destruct (A x) as [Q|[Q _]]; [exact Q|contradiction]. Qed.

(** ** Reading a cell *)
Lemma cell_cases s s' l v : settled s s' -> rep (hp s) (Some l) v ->
  rep (hp s) (Some l) v /\ hp s' l = hp s l \/
  exists b, v = VRawString b /\ c_dt (hp s' l) = TString /\ c_str (hp s' l) = x_unescape E b.
Proof.
  intros (A & _) R. destruct (A l) as [Q|[D Q]]; [auto|]. right. inversion R; subst; try congruence.
  eexists. split; [reflexivity|]. rewrite Q. split; reflexivity.
Qed.
Lemma cell_int h l v : rep h (Some l) v -> Int E (h l) = int_of E v.
Proof. intros R. inversion R; subst; unfold Int; match goal with H : c_dt _ = _ |- _ => rewrite H end; reflexivity. Qed.
Lemma cell_dbl h l v : rep h (Some l) v -> Double E (h l) = dbl_of E v.
Proof. intros R. inversion R; subst; unfold Double; match goal with H : c_dt _ = _ |- _ => rewrite H end; reflexivity. Qed.
Lemma cell_bool h l v : rep h (Some l) v -> Bool E (h l) = bool_of E v.
Proof. intros R. inversion R; subst; unfold Bool; match goal with H : c_dt _ = _ |- _ => rewrite H end; reflexivity. Qed.
Lemma cell_time h l v : rep h (Some l) v -> GoTime E T (h l) = time_of E T v.
Proof.
  intros R. inversion R; subst; unfold GoTime; match goal with H : c_dt _ = _ |- _ => rewrite H end; try reflexivity;
    rewrite (cell_dbl _ _ _ R); reflexivity.
Qed.
Lemma cell_text h l b : c_dt (h l) = TString -> c_str (h l) = b -> rep h (Some l) (VString b).
Proof. intros D <-. constructor. exact D. Qed.
(** A conversion that does not depend on unescaping. *)
Lemma firm_read {A} (f : value -> A) same (g : cell -> A) s s' l v : (forall a b, same a b = true -> a = b) ->
  (forall h l v, rep h (Some l) v -> g (h l) = f v) ->
  settled s s' -> rep (hp s) (Some l) v -> firm E f same v = true -> g (hp s' l) = f v.
Proof.
  intros SM GF ST R FM. destruct (cell_cases s s' l v ST R) as [[_ Q]|(b & -> & D & Q)].
  - rewrite Q. apply GF. exact R.
  - rewrite (GF _ _ _ (cell_text _ _ _ D Q)). symmetry. apply SM. exact FM.
Qed.
Lemma take_text s0 s l v b : settled s0 s -> rep (hp s0) (Some l) v -> text_of E v = Some b ->
  exists s', take_string E F s l = Ok (b, s') /\ settled s0 s'.
Proof.
  intros ST R TX.
  assert (SAME : forall c, c = hp s l -> settled s0 (set_cell s l c)).
  { intros c ->. apply (settled_trans _ _ _ ST). split; [|repeat split]. intros x. left. cbn [set_cell hp].
    unfold upd. destruct (x =? l)%nat eqn:Q; [apply Nat.eqb_eq in Q; subst|]; reflexivity. }
  destruct (cell_cases s0 s l v ST R) as [[_ Q]|(b' & -> & D & Q)].
  - unfold take_string. inversion R; subst; cbn [text_of] in TX; try discriminate TX;
      match goal with H : c_dt _ = _ |- _ => unfold StringOf; rewrite Q, H end; injection TX as <-; eexists; (split; [reflexivity|]);
      try (apply SAME; congruence).
    apply (settled_trans _ _ _ ST). split; [|repeat split]. intros x. cbn [set_cell hp]. unfold upd.
    destruct (x =? l)%nat eqn:QX; [apply Nat.eqb_eq in QX; subst|left; reflexivity]. right. rewrite Q. auto.
  - cbn [text_of] in TX. injection TX as <-. unfold take_string, StringOf. rewrite D. eexists. split; [rewrite Q; reflexivity|].
    apply SAME. reflexivity.
Qed.

(** ** Export of a tree *)
Fixpoint dep (v : value) : nat :=
  match v with
  | VObject _ kvs => S (fold_right (fun kv m => Nat.max (dep (snd kv)) m) 0%nat kvs)
  | VArray l => S (fold_right (fun x m => Nat.max (dep x) m) 0%nat l)
  | _ => 1%nat
  end.
Lemma solid_obj u kvs : solid (VObject u kvs) <-> Forall (fun kv => solid (snd kv)) kvs.
Proof. cbn [solid]. induction kvs as [|kv r IH]; split; intros H; auto; [destruct H; constructor; tauto|inversion H; subst; tauto]. Qed.
Lemma solid_arr l : solid (VArray l) <-> Forall solid l.
Proof. cbn [solid]. induction l as [|kv r IH]; split; intros H; auto; [destruct H; constructor; tauto|inversion H; subst; tauto]. Qed.

Definition exports (v : value) : Prop := forall s0 s p fuel, rep (hp s0) p v -> solid v -> settled s0 s -> (dep v <= fuel)%nat ->
  exists s', export E T F fuel s p = Ok (std E v, s') /\ settled s0 s'.

Lemma pairs_out kvs : Forall (fun kv => exports (snd kv)) kvs -> forall s0 fuel src m s,
  Forall2 (fun a b => fst a = fst b /\ rep (hp s0) (snd a) (snd b)) src kvs ->
  Forall (fun kv => solid (snd kv)) kvs -> settled s0 s -> (fold_right (fun kv m => Nat.max (dep (snd kv)) m) 0%nat kvs <= fuel)%nat ->
  exists s', visit_pairs (export E T F fuel) src m s =
    Ok (fold_left (fun m kx => go_set m (fst kx) (snd kx)) (gather (std E) kvs) m, s') /\ settled s0 s'.
Proof.
  induction 1 as [|[k v] kvs EX _ IH]; intros s0 fuel src m s R SO ST D; inversion R as [|[k' p] ? src' ? [K1 R1] R2]; subst.
  - exists s. split; [reflexivity|exact ST].
  - cbn [fst snd] in *. subst. inversion SO as [|? ? SO1 SO2]; subst. cbn [fold_right snd] in D.
    destruct (EX s0 s p fuel R1 SO1 ST ltac:(lia)) as (s1 & Q1 & ST1). cbn [visit_pairs]. fold (visit_pairs (export E T F fuel)). rewrite Q1. cbn [bind].
    destruct (IH s0 fuel src' (match std E v with Some x => go_set m k x | None => m end) s1 R2 SO2 ST1 ltac:(lia)) as (s2 & Q2 & ST2).
    exists s2. split; [|exact ST2]. rewrite Q2. unfold gather at 2. destruct (std E v); reflexivity.
Qed.
Lemma elems_out l : Forall exports l -> forall s0 fuel src m s,
  Forall2 (rep (hp s0)) src l -> Forall solid l -> settled s0 s -> (fold_right (fun x m => Nat.max (dep x) m) 0%nat l <= fuel)%nat ->
  exists m' s', visit_elems (export E T F fuel) src m s = Ok (m', s') /\ settled s0 s'.
Proof.
  induction 1 as [|v l EX _ IH]; intros s0 fuel src m s R SO ST D; inversion R as [|p ? src' ? R1 R2]; subst.
  - exists m, s. split; [reflexivity|exact ST].
  - inversion SO as [|? ? SO1 SO2]; subst. cbn [fold_right] in D.
    destruct (EX s0 s p fuel R1 SO1 ST ltac:(lia)) as (s1 & Q1 & ST1). cbn [visit_elems]. fold (visit_elems (export E T F fuel)). rewrite Q1. cbn [bind].
    destruct (IH s0 fuel src' (match std E v with Some x => m ++ [x] | None => m end) s1 R2 SO2 ST1 ltac:(lia)) as (m2 & s2 & Q2 & ST2).
    exists m2, s2. auto.
Qed.
Lemma exports_all v : exports v.
Proof.
  induction v using value_ind'; unfold exports; intros s0 s' p fuel R SO ST D;
    (destruct fuel as [|fuel]; [cbn [dep] in D; lia|]); cbn [export];
    try (destruct SO; fail); inversion R as [|l' kvs' DT FA|l' vs' DT FA|l' DT|l' DT|l' DT|l' DT|l' DT|l' DT|l' DT|l' DT|l' DT|l' DT|l' DT|l' DT|l' DT]; subst.
  all: try (assert (HQ : hp s' l' = hp s0 l') by (apply (settled_dt _ _ _ ST); congruence); rewrite HQ, DT; eexists; split; [|exact ST]; reflexivity).
  all: try (assert (HQ : hp s' l' = hp s0 l') by (apply (settled_dt _ _ _ ST); congruence); rewrite HQ, DT; eexists; (split; [|exact ST]);
    try rewrite (cell_int _ _ _ R); try rewrite (cell_dbl _ _ _ R); try rewrite (cell_time _ _ _ R); unfold Float, take_bytes; rewrite ?DT; reflexivity).
  - assert (HQ : hp s' l' = hp s0 l') by (apply (settled_dt _ _ _ ST); congruence). rewrite HQ, DT. cbn [dep] in D.
    destruct (pairs_out kvs H s0 fuel _ [] s' FA (proj1 (solid_obj _ _) SO) ST ltac:(lia)) as (s1 & Q & S1).
    rewrite Q. cbn [bind]. exists s1. split; [reflexivity|exact S1].
  - assert (HQ : hp s' l' = hp s0 l') by (apply (settled_dt _ _ _ ST); congruence). rewrite HQ, DT. cbn [dep] in D.
    destruct (elems_out l H s0 fuel _ (repeat XNil (length (c_arr (hp s0 l')))) s' FA (proj1 (solid_arr _) SO) ST ltac:(lia)) as (m1 & s1 & Q & S1).
    rewrite Q. cbn [bind]. exists s1. split; [|exact S1]. cbn [std]. rewrite (F2_len _ _ _ FA). reflexivity.
  - destruct (take_text s0 s' l' (VString (c_str (hp s0 l'))) (c_str (hp s0 l')) ST R eq_refl) as (s1 & Q & S1).
    assert (HQ : hp s' l' = hp s0 l') by (apply (settled_dt _ _ _ ST); congruence). rewrite HQ, DT, Q. exists s1. split; [reflexivity|exact S1].
  - destruct (take_text s0 s' l' (VRawString (c_str (hp s0 l'))) _ ST R eq_refl) as (s1 & Q & S1).
    assert (HD : c_dt (hp s' l') = TRaw \/ c_dt (hp s' l') = TString).
    { destruct (cell_cases s0 s' l' _ ST R) as [[_ HQ]|(b & _ & HD & _)]; [rewrite HQ|]; auto. }
    rewrite Q. exists s1. split; [|exact S1]. destruct HD as [-> | ->]; reflexivity.
Qed.

(** ** Go maps *)
Lemma get_set {A} (m : list (bytes * A)) k x k' : go_get (go_set m k x) k' = if beq k k' then Some x else go_get m k'.
Proof.
  unfold go_get. induction m as [|[a y] m IH]; cbn [go_set find fst].
  - destruct (beq k k'); reflexivity.
  - destruct (beq a k) eqn:Q; cbn [find fst].
    + apply beq_eq in Q. subst. destruct (beq k k'); reflexivity.
    + destruct (beq a k') eqn:Q'; [|exact IH]. destruct (beq k k') eqn:QK; [|reflexivity].
      apply beq_eq in Q', QK. subst. rewrite beq_refl in Q. discriminate.
Qed.
Lemma get_app {A} (a b : list (bytes * A)) k : go_get (a ++ b) k = match go_get a k with Some x => Some x | None => go_get b k end.
Proof. unfold go_get. induction a as [|[k' x] a IH]; [reflexivity|]. cbn [app find fst]. destruct (beq k' k); [reflexivity|exact IH]. Qed.
Lemma get_fold {A} (l : list (bytes * A)) : forall m k,
  go_get (fold_left (fun m kx => go_set m (fst kx) (snd kx)) l m) k = match last_of l k with Some x => Some x | None => go_get m k end.
Proof.
  induction l as [|[k' x] l IH]; intros m k; [reflexivity|]. cbn [fold_left fst snd]. rewrite IH, get_set.
  unfold last_of. cbn [rev]. rewrite get_app. destruct (go_get (rev l) k); [reflexivity|].
  unfold go_get at 2. cbn [find fst snd]. destruct (beq k' k); reflexivity.
Qed.
Lemma set_new {A} (m : list (bytes * A)) k x : ~ In k (map fst m) -> go_set m k x = m ++ [(k, x)].
Proof.
  induction m as [|[k' y] m IH]; intros NI; [reflexivity|]. cbn [go_set map fst In app] in *.
  destruct (beq k' k) eqn:Q; [apply beq_eq in Q; tauto|]. f_equal. apply IH. tauto.
Qed.
Lemma fold_new {A} (l : list (bytes * A)) : forall m, NoDup (map fst (m ++ l)) ->
  fold_left (fun m kx => go_set m (fst kx) (snd kx)) l m = m ++ l.
Proof.
  induction l as [|[k x] l IH]; intros m ND; [symmetry; apply app_nil_r|]. cbn [fold_left fst snd].
  rewrite set_new.
  - rewrite IH; rewrite <- app_assoc; [reflexivity|exact ND].
  - rewrite map_app in ND. cbn [map fst] in ND. apply NoDup_remove_2 in ND. intros I. apply ND. apply in_or_app. auto.
Qed.
Lemma exportable_obj u kvs : exportable (VObject u kvs) <-> NoDup (map fst kvs) /\ Forall (fun kv => exportable (snd kv)) kvs.
Proof.
  cbn [exportable]. split; intros [H1 H2]; (split; [exact H1|]); clear H1; induction kvs as [|kv r IH].
  - constructor.
  - destruct H2. constructor; auto.
  - exact I.
  - inversion H2; subst. split; [assumption|]. apply IH; assumption.
Qed.
Lemma ideal_obj u kvs : ideal E (VObject u kvs) = XMap (map (fun kv => (fst kv, ideal E (snd kv))) kvs).
Proof. reflexivity. Qed.
Lemma gather_map kvs : Forall (fun kv => std E (snd kv) = Some (ideal E (snd kv))) kvs ->
  gather (std E) kvs = map (fun kv => (fst kv, ideal E (snd kv))) kvs.
Proof.
  induction 1 as [|[k v] kvs Q _ IH]; [reflexivity|]. cbn [snd] in Q. unfold gather. rewrite Q. cbn [map fst snd]. f_equal. exact IH.
Qed.
Lemma std_ideal v : exportable v -> std E v = Some (ideal E v).
Proof.
  induction v using value_ind'; intros X; try reflexivity; try (destruct X; fail).
  apply exportable_obj in X as [ND FA]. cbn [std]. rewrite ideal_obj. do 2 f_equal. unfold as_map. rewrite gather_map.
  - rewrite fold_new; [reflexivity|]. cbn [app]. rewrite map_map. exact ND.
  - rewrite Forall_forall in *. intros kv I. apply H; auto.
Qed.
Lemma exportable_solid v : exportable v -> solid v.
Proof.
  induction v using value_ind'; intros X; try exact I; try (destruct X; fail).
  apply exportable_obj in X as [_ FA]. apply solid_obj. rewrite Forall_forall in *. intros kv I. apply H; auto.
Qed.

Theorem to_map s l u kvs m : rep (hp s) (Some l) (VObject u kvs) -> solid (VObject u kvs) ->
  exists n, forall fuel, (n <= fuel)%nat -> exists m' s', ToStdMap E T F fuel s l m = Ok (true, m', s') /\ settled s s' /\
    (forall k, go_get m' k = match last_of (gather (std E) kvs) k with Some x => Some x | None => go_get m k end) /\
    (NoDup (map fst (m ++ gather (std E) kvs)) -> m' = m ++ gather (std E) kvs).
Proof.
  intros R SO. exists (dep (VObject u kvs)). intros fuel L. cbn [dep] in L.
  inversion R as [|l' kvs' DT FA| | | | | | | | | | | | | |]; subst. unfold ToStdMap. rewrite DT.
  assert (EX : Forall (fun kv => exports (snd kv)) kvs) by (apply Forall_forall; intros; apply exports_all).
  destruct (pairs_out kvs EX s fuel _ m s FA (proj1 (solid_obj _ _) SO) (settled_refl s) ltac:(lia)) as (s1 & Q & S1).
  rewrite Q. cbn [bind]. eexists. exists s1. split; [reflexivity|]. split; [exact S1|]. split; [intros; apply get_fold|apply fold_new].
Qed.
End Export.

Section Strings.
Variable E : env.
Variable F : st -> nat -> res bytes.
Notation texts := (texts E).
Lemma strings_out kvs : forall s0 src m s t, texts kvs = Some t ->
  Forall2 (fun a b => fst a = fst b /\ rep (hp s0) (snd a) (snd b)) src kvs -> settled E s0 s ->
  exists s', visit_strings E F src m s = Ok (fold_left (fun m kx => go_set m (fst kx) (snd kx)) t m, s') /\ settled E s0 s'.
Proof.
  induction kvs as [|[k v] kvs IH]; intros s0 src m s t Q R ST; inversion R as [|[k' p] ? src' ? [K1 R1] R2]; subst; cbn [texts] in Q.
  - injection Q as <-. exists s. split; [reflexivity|exact ST].
  - cbn [fst snd] in *. subst. destruct (text_of E v) as [b|] eqn:TX; [|discriminate]. destruct (texts kvs) as [t'|]; [|discriminate]. injection Q as <-.
    destruct p as [l|]; [|inversion R1; subst; discriminate TX].
    destruct (take_text E F s0 s l v b ST R1 TX) as (s1 & Q1 & S1). cbn [visit_strings]. rewrite Q1. cbn [bind].
    apply (IH s0 src' (go_set m k b) s1 t' eq_refl R2 S1).
Qed.
Theorem to_strings s l u kvs m t : rep (hp s) (Some l) (VObject u kvs) -> texts kvs = Some t ->
  exists m' s', ToStdStrMap E F s l m = Ok (true, m', s') /\ settled E s s' /\
    forall k, go_get m' k = match last_of t k with Some x => Some x | None => go_get m k end.
Proof.
  intros R Q. inversion R as [|l' kvs' DT FA| | | | | | | | | | | | | |]; subst. unfold ToStdStrMap. rewrite DT.
  destruct (strings_out kvs s _ m s t Q FA (settled_refl E s)) as (s1 & Q1 & S1). rewrite Q1. cbn [bind].
  eexists. exists s1. split; [reflexivity|]. split; [exact S1|]. intros; apply get_fold.
Qed.
End Strings.
