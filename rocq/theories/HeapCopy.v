(** [AddFrom] and [CopyFrom]. *)
From Verif Require Import Base Values Tactics HeapModel HeapSpec HeapBase HeapConf HeapGet HeapCalls HeapObj HeapForce HeapTree HeapClone HeapMono HeapMerge.
Section Copy.
Variable G : nat -> nat.
Notation N := none_set.

Lemma add_kvs_S f s r src i c : add_kvs G (S f) s r src i c =
  match nth_error (c_kvs (hp s src)) i with
  | None => Ok s
  | Some (k, p) =>
      let j := List.length (c_kvs (hp s r)) in
      let s0 := set_cell s r (push_kv G (hp s r) k None) in
      do (x, s1) <- clone G f s0 p c;
      let cr := hp s1 r in
      add_kvs G f (set_cell s1 r (w_obj cr (c_unesc cr) (set_val j (Some x) (c_kvs cr)) (c_spare cr))) r src (S i) c
  end.
Proof. reflexivity. Qed.
Lemma set_val_end {A} (l : list (bytes * A)) k x y : set_val (List.length l) y (l ++ [(k, x)]) = l ++ [(k, y)].
Proof.
  unfold set_val. rewrite nth_error_app2, Nat.sub_diag by lia. cbn [nth_error].
  induction l as [|a l IH]; [reflexivity|]. cbn [List.length app set_nth]. f_equal. exact IH.
Qed.
Lemma push_cell c k p : c_kvs (push_kv G c k p) = c_kvs c ++ [(k, p)] /\ c_dt (push_kv G c k p) = c_dt c /\ c_unesc (push_kv G c k p) = c_unesc c.
Proof. unfold push_kv. destruct (c_spare c); repeat split. Qed.

Lemma adds_kvs vs : Forall (fun kv => clones G (snd kv)) vs ->
  exists n0, forall fuel s r src i c, (n0 <= fuel)%nat -> wf s -> ok_cache N s c -> live s r -> (5 <= r)%nat ->
    live s src -> src <> r ->
    (forall kv, In kv (skipn i (c_kvs (hp s src))) -> src_ok s (snd kv) /\ forall l, snd kv = Some l -> ~ reach (hp s) l r) ->
    Forall2 (fun a b => fst a = fst b /\ rep (hp s) (snd a) (snd b)) (skipn i (c_kvs (hp s src))) vs ->
    exists s' new, add_kvs G fuel s r src i c = Ok s' /\ wf s' /\ filled s c r s' /\
      c_kvs (hp s' r) = c_kvs (hp s r) ++ new /\ c_dt (hp s' r) = c_dt (hp s r) /\
      c_unesc (hp s' r) = c_unesc (hp s r) /\
      Forall2 (fun a b => fst a = fst b /\ rep (hp s') (snd a) (snd b)) new (map (fun kv => (fst kv, strip (snd kv))) vs) /\
      (forall y, In (Some y) (map snd new) -> kid s c r s' y) /\ bushes (hp s') (map snd new).
Proof.
  induction vs as [|[k v] vs IH]; intros FA.
  - exists 1%nat. intros fuel s r src i c Fu W OC L L5 Ls NE SO F2.
    destruct fuel as [|fuel]; [lia|]. inversion F2 as [Q|]; subst. symmetry in Q.
    exists s, []. rewrite add_kvs_S. rewrite (skipn_end _ _ Q). rewrite app_nil_r.
    refine (conj eq_refl (conj W (conj (filled_refl _ _ _) (conj eq_refl (conj eq_refl (conj eq_refl (conj _ (conj _ (bushes_nil _))))))))); [constructor|intros y []].
  - inversion FA as [|? ? [n1 H1] FA']; subst. destruct (IH FA') as [n2 H2]. exists (S (Nat.max n1 n2)).
    intros fuel s r src i c Fu W OC L L5 Ls NE SO F2. destruct fuel as [|fuel]; [lia|].
    destruct (skipn i (c_kvs (hp s src))) as [|[k' p] rest] eqn:SK; [inversion F2|].
    apply skipn_nth in SK as [NT SK]. inversion F2 as [|? ? ? ? [KE RP] F2']; subst. cbn [fst snd] in KE, RP. subst k'.
    rewrite add_kvs_S. rewrite NT. cbv zeta.
    destruct (SO (k, p) (or_introl eq_refl)) as [S1 S2]. cbn [snd] in S1, S2.
    destruct (push_cell (hp s r) k None) as (PK0 & PD0 & PU0).
    assert (F0 : filled s c r (set_cell s r (push_kv G (hp s r) k None))).
    { apply (filled_set G); [|exact PD0]. intros P PC s' A. apply okc_push; auto. intros z Q. discriminate Q. }
    set (s0 := set_cell s r (push_kv G (hp s r) k None)) in *.
    assert (HR0 : hp s0 r = push_kv G (hp s r) k None) by (unfold s0; cbn [set_cell hp]; apply upd_same).
    assert (T00 : tr N N s s0) by (apply (fl_tr _ _ _ _ F0); [exact W|exact OC|split; [apply L|intros []]]).
    assert (OC0 : ok_cache N s0 c) by (eapply ok_cache_tr; eauto).
    assert (L0 : live s0 r) by (apply (fl_lives _ _ _ _ F0); auto).
    destruct (src_after s c r s0 p v F0 S1 S2 RP) as (S1' & RP' & S2').
    destruct (H1 fuel s0 p c) as (x & s1 & E1 & CL); auto; [lia|apply T00|]. cbn [snd] in *. rewrite E1. cbn [bind].
    assert (HR1 : hp s1 r = push_kv G (hp s r) k None) by (rewrite (k_frame _ _ _ _ _ CL r L0); exact HR0).
    set (nc := w_obj (hp s1 r) (c_unesc (hp s1 r)) (set_val (List.length (c_kvs (hp s r))) (Some x) (c_kvs (hp s1 r))) (c_spare (hp s1 r))).
    destruct (fill_one G s0 c r (strip v) x s1 nc (proj1 T00) OC0 L0 L5 CL) as (W2 & F1' & K1' & R1 & T1).
    { reflexivity. }
    { intros P PC s' A B. apply okc_set_val; auto. }
    set (s2 := set_cell s1 r nc) in *.
    assert (F1 : filled s c r s2) by (exact (filled_trans _ _ _ _ _ F0 F1')).
    assert (K1 : kid s c r s2 x) by (exact (kid_before _ _ _ _ _ _ F0 K1')).
    assert (SRC : hp s2 src = hp s src) by (apply (fl_frame _ _ _ _ F1); auto).
    assert (T0 : tr N N s s2) by (apply (fl_tr _ _ _ _ F1); [exact W|exact OC|split; [apply L|intros []]]).
    destruct (H2 fuel s2 r src (S i) c) as (s' & new & E2 & W' & F & A1 & A2 & A3 & A4 & A5 & A6); auto; try lia.
    + eapply ok_cache_tr; eauto.
    + apply (fl_lives _ _ _ _ F1); auto.
    + apply (fl_lives _ _ _ _ F1); auto.
    + rewrite SRC. intros kv I. destruct (SO kv (or_intror I)) as [Sa Sb].
      assert (RJ : exists u, rep (hp s) (snd kv) u).
      { clear - F2' I. induction F2' as [|a b l1 l2 [_ Q] F2' IH]; [destruct I|]. destruct I as [<-|I]; eauto. }
      destruct RJ as [u RU]. destruct (src_after s c r s2 (snd kv) u F1 Sa Sb RU) as (X & _ & Y). auto.
    + rewrite SRC. eapply Forall2_impl_in; [exact F2'|]. intros a b I [Q R]. split; [exact Q|].
      destruct (SO a (or_intror I)) as [Sa Sb]. apply (src_after s c r s2 (snd a) (snd b) F1 Sa Sb R).
    + assert (PK : c_kvs (hp s2 r) = c_kvs (hp s r) ++ [(k, Some x)] /\ c_dt (hp s2 r) = c_dt (hp s r) /\ c_unesc (hp s2 r) = c_unesc (hp s r)).
      { unfold s2. cbn [set_cell hp]. rewrite upd_same. unfold nc. rewrite HR1. cbn [w_obj c_kvs c_dt c_unesc]. rewrite PK0, PD0, PU0, set_val_end. auto. }
      destruct PK as (P1 & P2 & P3).
      destruct (kid_after G s c r s2 s' x W2 L L5 F1 F K1) as [K1'' Q1].
      exists s', ((k, Some x) :: new). split; [exact E2|]. split; [exact W'|].
      split; [eapply filled_trans; eauto|].
      split; [rewrite A1, P1, <- app_assoc; reflexivity|]. split; [congruence|]. split; [congruence|]. split; [|split].
      * cbn [map]. constructor; [|exact A4]. split; [reflexivity|]. cbn [snd]. apply (rep_frame (hp s2)); [exact R1|].
        intros z (l & Q & R). injection Q as <-. auto.
      * cbn [map snd]. intros y [Y|Y]; [injection Y as <-; exact K1''|]. exact (kid_before _ _ _ _ _ _ F1 (A5 y Y)).
      * cbn [map snd]. eapply (bush_kids G s c r s2 s' x); eauto.
Qed.

(** What the calls need of the source: it is in use, and so is everything below it, whose booleans,
    NaN and Inf are the shared constants (as for [Clone]). *)
Definition from_graph (s : st) (m : nat) : Prop :=
  live s m /\ forall y, sees (hp s m) y -> cloneable_graph s y.
Lemma from_obj s m kv : from_graph s m -> c_dt (hp s m) = TObject -> In kv (c_kvs (hp s m)) -> src_ok s (snd kv).
Proof.
  intros [_ F] D I y Q. apply F. unfold sees. rewrite D. rewrite <- Q. apply in_map. exact I.
Qed.
Lemma from_arr s m p : from_graph s m -> c_dt (hp s m) = TArray -> In p (c_arr (hp s m)) -> src_ok s p.
Proof. intros [_ F] D I y Q. apply F. unfold sees. rewrite D. rewrite <- Q. exact I. Qed.
Lemma apart_obj s m l kv : ~ reach (hp s) m l -> c_dt (hp s m) = TObject -> In kv (c_kvs (hp s m)) ->
  forall y, snd kv = Some y -> ~ reach (hp s) y l.
Proof.
  intros A D I y Q R. apply A. eapply reach_trans; [apply reach_child|exact R]. unfold sees. rewrite D, <- Q. apply in_map. exact I.
Qed.
Lemma apart_arr s m l p : ~ reach (hp s) m l -> c_dt (hp s m) = TArray -> In p (c_arr (hp s m)) ->
  forall y, p = Some y -> ~ reach (hp s) y l.
Proof. intros A D I y Q R. apply A. eapply reach_trans; [apply reach_child|exact R]. unfold sees. rewrite D, <- Q. exact I. Qed.
Lemma clones_kvs_all u kvs : clonable (VObject u kvs) -> Forall (fun kv => clones G (snd kv)) kvs.
Proof. intros H. apply clonable_obj in H. eapply Forall_impl; [|exact H]. intros kv Q. apply clones_all. exact Q. Qed.
Lemma clones_arr_all vs : clonable (VArray vs) -> Forall (clones G) vs.
Proof. intros H. apply clonable_arr in H. eapply Forall_impl; [|exact H]. intros v Q. apply clones_all. exact Q. Qed.

(** ** The object branch *)
Lemma add_object um km : clonable (VObject um km) -> exists n0, forall fuel s l m c, (n0 <= fuel)%nat -> wf s -> ok_cache N s c ->
  live s l -> c_dt (hp s l) = TObject -> from_graph s m -> ~ reach (hp s) m l -> rep (hp s) (Some m) (VObject um km) ->
  exists s' new, AddFrom G fuel s l m c = Ok s' /\ wf s' /\
    filled s (match c with None => c_own (hp s l) | _ => c end) l s' /\
    c_kvs (hp s' l) = c_kvs (hp s l) ++ new /\ c_dt (hp s' l) = TObject /\ c_unesc (hp s' l) = um /\
    Forall2 (fun a b => fst a = fst b /\ rep (hp s') (snd a) (snd b)) new (map (fun kv => (fst kv, strip (snd kv))) km) /\
    (forall y, In (Some y) (map snd new) -> forall x, reach (hp s') y x -> (x < 5)%nat \/ ((5 <= x)%nat /\ ~ live s x /\ live s' x)) /\
    bushes (hp s') (map snd new).
Proof.
  intros CB. destruct (adds_kvs km (clones_kvs_all _ _ CB)) as [n0 H]. exists n0.
  intros fuel s l m c Fu W OC L D FG AP R. unfold AddFrom.
  assert (L5 : (5 <= l)%nat) by (eapply good_5; eauto).
  inversion R as [|? ? Dm F2| | | | | | | | | | | | | |]; subst. rewrite Dm. cbv zeta.
  assert (NE : m <> l) by (intros ->; apply AP; constructor).
  set (c' := match c with None => c_own (hp s l) | _ => c end).
  assert (OC' : ok_cache N s c').
  { destruct c; [exact OC|]. apply (own_ok N N); [exact W|]. apply ok_of_live. exact L. }
  set (cl := hp s l). set (nc := w_obj cl (c_unesc (hp s m)) (c_kvs cl) (c_spare cl)).
  assert (F0 : filled s c' l (set_cell s l nc)).
  { apply (filled_set G); [|reflexivity]. intros P PC s' A. apply okc_obj_sub; auto. }
  set (s1 := set_cell s l nc) in *.
  assert (H1 : hp s1 l = nc) by (unfold s1; cbn [set_cell hp]; apply upd_same).
  assert (M1 : hp s1 m = hp s m) by (apply (fl_frame _ _ _ _ F0); [apply FG|auto]).
  assert (T0 : tr N N s s1) by (apply (fl_tr _ _ _ _ F0); [exact W|exact OC'|apply ok_of_live; exact L]).
  destruct (H fuel s1 l m O c' Fu (proj1 T0) (ok_cache_tr N N _ _ _ T0 OC') (fl_lives _ _ _ _ F0 l L) L5
    (fl_lives _ _ _ _ F0 m (proj1 FG)) NE) as (s' & new & A & W' & F & K1 & K2 & K3 & K4 & K5 & K6).
  - cbn [skipn]. rewrite M1. intros kv I.
    assert (RJ : exists u, rep (hp s) (snd kv) u).
    { clear - F2 I. induction F2 as [|a b l1 l2 [_ Q] F2 IH]; [destruct I|]. destruct I as [<-|I]; eauto. }
    destruct RJ as [u RU].
    destruct (src_after s c' l s1 (snd kv) u F0 (from_obj s m kv FG Dm I) (apart_obj s m l kv AP Dm I) RU) as (X & _ & Y). auto.
  - cbn [skipn]. rewrite M1. eapply Forall2_impl_in; [exact F2|]. intros a b I [Q Rb]. split; [exact Q|].
    apply (src_after s c' l s1 (snd a) (snd b) F0 (from_obj s m a FG Dm I) (apart_obj s m l a AP Dm I) Rb).
  - exists s', new. split; [exact A|]. split; [exact W'|]. split; [exact (filled_trans _ _ _ _ _ F0 F)|].
    rewrite H1 in K1, K2, K3. cbn [nc w_obj c_kvs c_dt c_unesc] in K1, K2, K3. unfold cl in K1, K2. rewrite D in K2.
    split; [exact K1|]. split; [exact K2|]. split; [exact K3|]. split; [exact K4|].
    split; [|exact K6]. intros y Y x X. exact (kd_new _ _ _ _ _ (kid_before _ _ _ _ _ _ F0 (K5 y Y)) x X).
Qed.
(** ** The array branch *)
Lemma add_array vm : clonable (VArray vm) -> exists n0, forall fuel s l m c, (n0 <= fuel)%nat -> wf s ->
  live s l -> c_dt (hp s l) = TArray -> from_graph s m -> ~ reach (hp s) m l -> rep (hp s) (Some m) (VArray vm) ->
  exists s' new, AddFrom G fuel s l m c = Ok s' /\ wf s' /\ filled s (c_own (hp s l)) l s' /\
    c_arr (hp s' l) = c_arr (hp s l) ++ new /\ c_dt (hp s' l) = TArray /\
    Forall2 (rep (hp s')) new (map strip vm) /\
    (forall y, In (Some y) new -> forall x, reach (hp s') y x -> (x < 5)%nat \/ ((5 <= x)%nat /\ ~ live s x /\ live s' x)) /\
    bushes (hp s') new.
Proof.
  intros CB. destruct (clones_arr G vm (clones_arr_all _ CB)) as [n0 H]. exists n0.
  intros fuel s l m c Fu W L D FG AP R. unfold AddFrom.
  assert (L5 : (5 <= l)%nat) by (eapply good_5; eauto).
  inversion R as [| |? ? Dm F2| | | | | | | | | | | | |]; subst. rewrite Dm.
  assert (NE : m <> l) by (intros ->; apply AP; constructor).
  destruct (H fuel s l m O (c_own (hp s l))) as (s' & new & A & W' & F & K1 & K2 & K3 & K4 & K5 & K6); auto.
  - apply (own_ok N N); [exact W|]. apply ok_of_live. exact L.
  - apply FG.
  - cbn [skipn]. intros p I. split; [eapply from_arr; eauto|eapply apart_arr; eauto].
  - exists s', new. split; [exact A|]. split; [exact W'|]. split; [exact F|]. rewrite D in K2.
    split; [exact K1|]. split; [exact K2|]. split; [exact K4|].
    split; [|exact K6]. intros y Y x X. exact (kd_new _ _ _ _ _ (K5 y Y) x X).
Qed.

(** ** What was there before *)
Lemma kid_same s c l s' : filled s c l s' -> forall p v, rep (hp s) (Some l) v -> plive s (Some l) ->
  (forall y, p = Some y -> sees (hp s l) y) -> forall u, rep (hp s) p u -> rep (hp s') p u.
Proof.
  intros F p v R PL SE u RU. apply (rep_frame (hp s)); [exact RU|]. intros x (y & -> & X).
  apply (fl_frame _ _ _ _ F).
  - apply PL. exists l. split; [reflexivity|]. eapply reach_trans; [apply reach_child; apply SE; reflexivity|exact X].
  - intros ->. exact (rep_acyclic G (hp s) l v y R (SE y eq_refl) X).
Qed.

(** A tree that is given new trees stays one. *)
Lemma tree_more s c l s' v new : filled s c l s' -> rep (hp s) (Some l) v -> plive s (Some l) -> (5 <= l)%nat ->
  kid_ptrs (hp s' l) = kid_ptrs (hp s l) ++ new -> bushes (hp s') new ->
  (forall y, In (Some y) new -> forall x, reach (hp s') y x -> (x < 5)%nat \/ ((5 <= x)%nat /\ ~ live s x /\ live s' x)) ->
  treelike (hp s) l -> treelike (hp s') l.
Proof.
  intros F R PL L5 KQ B NW T.
  assert (OLD : forall k z, In (Some k) (kid_ptrs (hp s l)) -> reach (hp s) k z -> live s z /\ z <> l).
  { intros k z I Z. apply kid_sees in I. split.
    - apply PL. exists l. split; [reflexivity|]. eapply reach_trans; [apply reach_child; exact I|exact Z].
    - intros ->. exact (rep_acyclic G (hp s) l v k R I Z). }
  assert (FR : forall k z, In (Some k) (kid_ptrs (hp s l)) -> reach (hp s) k z -> hp s' z = hp s z).
  { intros k z I Z. destruct (OLD k z I Z). apply (fl_frame _ _ _ _ F); auto. }
  assert (RS : forall k z, In (Some k) (kid_ptrs (hp s l)) -> reach (hp s') k z -> reach (hp s) k z).
  { intros k z I Z. apply (reach_same (hp s) (hp s') k (fun z' => FR k z' I)). exact Z. }
  assert (LL : live s l) by (apply PL; exists l; split; [reflexivity|constructor]).
  apply treelike_kids.
  - rewrite KQ. apply bushes_app; [eapply bushes_frame; [exact FR|apply treelike_bushes; exact T]|exact B|].
    intros k y z I J Zk Zy. destruct (NW y J z Zy) as [Q|(_ & Q & _)]; [exact Q|].
    destruct (OLD k z I (RS k z I Zk)) as [X _]. contradiction.
  - intros k S Z. apply kid_sees in S. rewrite KQ in S. apply in_app_or in S as [S|S].
    + destruct (OLD k l S (RS k l S Z)) as [_ X]. apply X. reflexivity.
    + destruct (NW k S l Z) as [Q|(_ & Q & _)]; [exact (Nat.lt_irrefl l (Nat.lt_le_trans _ _ _ Q L5))|contradiction].
Qed.

(** The call changes the receiver only, and gives it nothing but new cells; a tree stays a tree. *)
Definition grows (s : st) (l : nat) (s' : st) : Prop :=
  (forall x, live s x -> x <> l -> hp s' x = hp s x) /\ (forall x, live s x -> live s' x) /\
  (forall x, reach (hp s') l x -> reach (hp s) l x \/ (x < 5)%nat \/ (~ live s x /\ live s' x)) /\
  (treelike (hp s) l -> treelike (hp s') l).

Theorem AddFrom_object s l m c u kl um km : wf s -> ok_cache N s c -> plive s (Some l) -> from_graph s m -> ~ reach (hp s) m l ->
  rep (hp s) (Some l) (VObject u kl) -> rep (hp s) (Some m) (VObject um km) -> clonable (VObject um km) ->
  exists n0, forall fuel, (n0 <= fuel)%nat -> exists s', AddFrom G fuel s l m c = Ok s' /\ wf s' /\
    rep (hp s') (Some l) (VObject um (kl ++ map (fun kv => (fst kv, strip (snd kv))) km)) /\ grows s l s'.
Proof.
  intros W OC PL FG AP Rl Rm CB. destruct (add_object um km CB) as [n0 H]. exists n0. intros fuel Fu.
  assert (L : live s l) by (apply PL; exists l; split; [reflexivity|constructor]).
  inversion Rl as [|? ? Dl F2 Q1 Q2| | | | | | | | | | | | | |]. subst.
  destruct (H fuel s l m c) as (s' & new & A & W' & F & K1 & K2 & K3 & K4 & K5 & K6); auto.
  assert (SE : forall kv y, In kv (c_kvs (hp s l)) -> snd kv = Some y -> sees (hp s l) y).
  { intros kv y I Q. unfold sees. rewrite Dl, <- Q. apply in_map. exact I. }
  exists s'. split; [exact A|]. split; [exact W'|]. split; [|split; [|split; [|split]]].
  - apply rep_obj_intro; [exact K2|auto|]. rewrite K1. apply Forall2_app; [|exact K4].
    eapply Forall2_impl_in; [exact F2|]. intros a b I [Q Rb]. split; [exact Q|].
    eapply kid_same; [exact F|exact Rl|exact PL| |exact Rb]. intros y. apply SE. exact I.
  - intros x X Y. apply (fl_frame _ _ _ _ F); auto.
  - apply (fl_lives _ _ _ _ F).
  - intros x X. apply reach_cases in X as [->|(y & Sy & X)]; [left; constructor|].
    unfold sees in Sy. rewrite K2, K1, map_app in Sy. apply in_app_or in Sy as [Sy|Sy].
    + left. assert (Sl : sees (hp s l) y) by (unfold sees; rewrite Dl; exact Sy).
      eapply reach_trans; [apply reach_child; exact Sl|].
      apply (reach_same (hp s) (hp s')); [|exact X]. intros z Z. apply (fl_frame _ _ _ _ F).
      * apply PL. exists l. split; [reflexivity|]. eapply reach_trans; [apply reach_child; exact Sl|exact Z].
      * intros ->. exact (rep_acyclic G (hp s) l _ y Rl Sl Z).
    + right. destruct (K5 y Sy x X) as [Q|(_ & Q1 & Q2)]; [left; exact Q|right; auto].
  - apply (tree_more s _ l s' _ (map snd new) F Rl PL); auto; [eapply good_5; eauto|].
    unfold kid_ptrs. rewrite K2, Dl, K1, map_app. reflexivity.
Qed.
Theorem AddFrom_array s l m c vl vm : wf s -> plive s (Some l) -> from_graph s m -> ~ reach (hp s) m l ->
  rep (hp s) (Some l) (VArray vl) -> rep (hp s) (Some m) (VArray vm) -> clonable (VArray vm) ->
  exists n0, forall fuel, (n0 <= fuel)%nat -> exists s', AddFrom G fuel s l m c = Ok s' /\ wf s' /\
    rep (hp s') (Some l) (VArray (vl ++ map strip vm)) /\ grows s l s'.
Proof.
  intros W PL FG AP Rl Rm CB. destruct (add_array vm CB) as [n0 H]. exists n0. intros fuel Fu.
  assert (L : live s l) by (apply PL; exists l; split; [reflexivity|constructor]).
  inversion Rl as [| |? ? Dl F2 Q1 Q2| | | | | | | | | | | | |]. subst.
  destruct (H fuel s l m c) as (s' & new & A & W' & F & K1 & K2 & K4 & K5 & K6); auto.
  assert (SE : forall y, In (Some y) (c_arr (hp s l)) -> sees (hp s l) y).
  { intros y I. unfold sees. rewrite Dl. exact I. }
  exists s'. split; [exact A|]. split; [exact W'|]. split; [|split; [|split; [|split]]].
  - apply rep_arr; [exact K2|]. rewrite K1. apply Forall2_app; [|exact K4].
    eapply Forall2_impl_in; [exact F2|]. intros a b I Rb.
    eapply kid_same; [exact F|exact Rl|exact PL| |exact Rb]. intros y ->. apply SE. exact I.
  - intros x X Y. apply (fl_frame _ _ _ _ F); auto.
  - apply (fl_lives _ _ _ _ F).
  - intros x X. apply reach_cases in X as [->|(y & Sy & X)]; [left; constructor|].
    unfold sees in Sy. rewrite K2, K1 in Sy. apply in_app_or in Sy as [Sy|Sy].
    + left. pose proof (SE y Sy) as Sl.
      eapply reach_trans; [apply reach_child; exact Sl|].
      apply (reach_same (hp s) (hp s')); [|exact X]. intros z Z. apply (fl_frame _ _ _ _ F).
      * apply PL. exists l. split; [reflexivity|]. eapply reach_trans; [apply reach_child; exact Sl|exact Z].
      * intros ->. exact (rep_acyclic G (hp s) l _ y Rl Sl Z).
    + right. destruct (K5 y Sy x X) as [Q|(_ & Q1 & Q2)]; [left; exact Q|right; auto].
  - apply (tree_more s _ l s' _ new F Rl PL); auto; [eapply good_5; eauto|].
    unfold kid_ptrs. rewrite K2, Dl, K1. reflexivity.
Qed.

(** ** [CopyFrom] *)
Lemma after_reset s l t m v : wf s -> live s l -> (5 <= l)%nat -> from_graph s m -> ~ reach (hp s) m l -> rep (hp s) (Some m) v ->
  let s0 := Reset s l t in
  wf s0 /\ (forall c, ok_cache N s c -> ok_cache N s0 c) /\ hp s0 l = reset_cell (hp s l) t /\ (forall x, x <> l -> hp s0 x = hp s x) /\
  (forall x, live s0 x <-> live s x) /\ from_graph s0 m /\ ~ reach (hp s0) m l /\ rep (hp s0) (Some m) v.
Proof.
  intros W L L5 FG AP R s0.
  assert (RS : s0 = set_cell s l (reset_cell (hp s l) t)).
  { unfold s0, Reset. destruct (ReadOnly l) eqn:RO; [|reflexivity]. unfold ReadOnly in RO. apply Nat.ltb_lt in RO. lia. }
  assert (T : tr N N s s0) by (apply tr_Reset; [exact W|apply ok_of_live; exact L]).
  assert (FR : forall x, x <> l -> hp s0 x = hp s x) by (intros x X; rewrite RS; cbn [set_cell hp]; apply upd_other; auto).
  assert (LV : forall x, live s0 x <-> live s x) by (intros x; rewrite RS; reflexivity).
  assert (SM : forall x, reach (hp s) m x -> hp s0 x = hp s x) by (intros x X; apply FR; intros ->; auto).
  assert (RM : forall x, reach (hp s0) m x <-> reach (hp s) m x) by (apply reach_same; exact SM).
  split; [apply T|]. split; [intros c OC; eapply ok_cache_tr; eauto|]. split; [rewrite RS; cbn [set_cell hp]; apply upd_same|].
  split; [exact FR|]. split; [exact LV|]. split; [|split].
  - split; [apply LV; apply FG|]. intros y Y x X.
    assert (Y' : sees (hp s m) y) by (rewrite <- (SM m (reach_refl _ _)); exact Y).
    assert (XM : reach (hp s) y x).
    { apply (reach_same (hp s) (hp s0) y); [|exact X]. intros z Z. apply SM. eapply reach_trans; [apply reach_child; exact Y'|exact Z]. }
    destruct (proj2 FG y Y' x XM) as [A B]. split; [apply LV; exact A|]. rewrite (SM x); [exact B|].
    eapply reach_trans; [apply reach_child; exact Y'|exact XM].
  - intros X. apply RM in X. exact (AP X).
  - apply (rep_frame (hp s)); [exact R|]. intros x (y & Q & X). injection Q as <-. auto.
Qed.

(** The call changes the receiver only, which then consists of new cells and is a tree. *)
Definition replaces (s : st) (l : nat) (s' : st) : Prop :=
  (forall x, live s x -> x <> l -> hp s' x = hp s x) /\ (forall x, live s x -> live s' x) /\
  (forall x, reach (hp s') l x -> x = l \/ (x < 5)%nat \/ (~ live s x /\ live s' x)) /\ treelike (hp s') l.
Theorem CopyFrom_content s l m c v : wf s -> ok_cache N s c -> live s l -> (5 <= l)%nat -> from_graph s m -> ~ reach (hp s) m l ->
  rep (hp s) (Some m) v -> clonable v ->
  exists n0, forall fuel, (n0 <= fuel)%nat -> exists s', CopyFrom G fuel s l m c = Ok s' /\ wf s' /\
    rep (hp s') (Some l) (strip v) /\ replaces s l s'.
Proof.
  intros W OC L L5 FG AP R CB.
  destruct (after_reset s l (c_dt (hp s m)) m v W L L5 FG AP R) as (W0 & OC0 & C0 & FR & LV & FG0 & AP0 & R0).
  set (s0 := Reset s l (c_dt (hp s m))) in *.
  assert (NE : m <> l) by (intros ->; apply AP; constructor).
  assert (M0 : hp s0 m = hp s m) by (apply FR; exact NE).
  assert (NS : forall x, ~ sees (hp s0 l) x) by (intros x; rewrite C0; eapply clean_leaf, clean_reset).
  assert (RL : forall x, reach (hp s0) l x -> x = l) by (intros x; apply reach_leaf; exact NS).
  assert (PL0 : plive s0 (Some l)).
  { intros x (y & Q & X). injection Q as <-. rewrite (RL x X). apply LV. exact L. }
  assert (GR : forall s', grows s0 l s' -> replaces s l s').
  { intros s' (A & B & C & D). split; [|split; [|split; [|apply D, treelike_leaf, NS]]].
    - intros x X Y. rewrite (A x); [apply FR; exact Y|apply LV; exact X|exact Y].
    - intros x X. apply B, LV, X.
    - intros x X. destruct (C x X) as [Q|[Q|[Q1 Q2]]]; [left; exact (RL x Q)|auto|].
      right. right. split; [|exact Q2]. intros Y. apply Q1, LV, Y. }
  assert (OB : forall nc, ok_cell N N s0 nc -> (forall x, ~ sees nc x) -> wf (set_cell s0 l nc) /\ replaces s l (set_cell s0 l nc)).
  { intros nc OKC NS'. split; [apply tr_set_cell; auto; [apply ok_of_live; apply LV; exact L|lia]|]. apply GR. split; [|split; [|split; [|intros _; apply treelike_leaf; cbn [set_cell hp]; rewrite upd_same; exact NS']]].
    - intros x X Y. cbn [set_cell hp]. apply upd_other; auto.
    - intros x X. exact X.
    - intros x X. left. apply reach_leaf in X; [subst; constructor|]. cbn [set_cell hp]. rewrite upd_same. exact NS'. }
  assert (OK0 : ok_cell N N s0 (hp s0 l)) by (apply (cell_ok_at N N); [exact W0|apply ok_of_live; apply LV; exact L]).
  unfold CopyFrom. cbv zeta. fold s0. clearbody s0.
  assert (D0 : c_dt (hp s0 l) = c_dt (hp s m)) by (rewrite C0; apply dt_reset).
  assert (G0 : replaces s l s0).
  { apply GR. split; [auto|]. split; [auto|]. split; [|auto]. intros x X. left. exact X. }
  inversion R as [|? kvs Dm F2|? vs Dm F2|? Dm|? Dm|? Dm|? Dm|? Dm|? Dm|? Dm|? Dm|? Dm|? Dm|? Dm|? Dm|? Dm]; subst; rewrite Dm in *;
    try (destruct CB; fail); try rewrite D0; cbn [vt_code Z.leb Z.compare Pos.compare Pos.compare_cont andb].
  1:{ assert (Rl : rep (hp s0) (Some l) (VObject false [])).
    { apply rep_obj_intro; [exact D0|rewrite C0; reflexivity|]. rewrite C0. constructor. }
    destruct (AddFrom_object s0 l m c false [] (c_unesc (hp s m)) kvs W0 (OC0 c OC) PL0 FG0 AP0 Rl R0 CB) as [n0 H].
    exists n0. intros fuel Fu. destruct (H fuel Fu) as (s' & A & B & C & D). exists s'. auto. }
  1:{ assert (Rl : rep (hp s0) (Some l) (VArray [])).
    { apply rep_arr; [exact D0|rewrite C0; constructor]. }
    destruct (AddFrom_array s0 l m c [] vs W0 PL0 FG0 AP0 Rl R0 CB) as [n0 H].
    exists n0. intros fuel Fu. destruct (H fuel Fu) as (s' & A & B & C & D). exists s'. auto. }
  all: try (exists 0%nat; intros fuel _; exists s0; split; [reflexivity|]; split; [exact W0|]; split; [constructor; exact D0|exact G0]).
  all: exists 0%nat; intros fuel _; eexists; split; [reflexivity|]; rewrite M0.
  all: match goal with |- wf (set_cell _ _ ?nc) /\ _ => destruct (OB nc OK0 NS) as [A B]; split; [exact A|]; split; [|exact B] end.
  all: cbn [strip]; match goal with |- rep (hp (set_cell ?s0 ?l ?nc)) _ _ =>
         assert (U : hp (set_cell s0 l nc) l = nc) by (cbn [set_cell hp]; apply upd_same);
         generalize dependent (hp (set_cell s0 l nc)); intros h U end.
  - replace (c_str (hp s m)) with (c_str (h l)) by (rewrite U; reflexivity). apply rep_str. rewrite U. exact D0.
  - replace (c_str (hp s m)) with (c_str (h l)) by (rewrite U; reflexivity). apply rep_raw. rewrite U. exact D0.
  - replace (VInt 0 (to_i64 (c_sv (hp s m)))) with (VInt (c_ext (h l)) (to_i64 (c_sv (h l)))).
    + apply rep_int. rewrite U. exact D0.
    + rewrite U. cbn [w_sv c_ext c_sv]. rewrite C0. cbn [reset_cell c_ext]. reflexivity.
  - replace (c_sv (hp s m)) with (c_sv (h l)) by (rewrite U; reflexivity). apply rep_flt. rewrite U. exact D0.
  - replace (c_sv (hp s m)) with (c_sv (h l)) by (rewrite U; reflexivity). apply rep_dbl. rewrite U. exact D0.
  - replace (c_sv (hp s m)) with (c_sv (h l)) by (rewrite U; reflexivity). apply rep_dat. rewrite U. exact D0.
Qed.

(** ** Adding a value to itself *)
(** A copy that succeeds, of anything, leaves the cells in use as they are. *)
Definition frame (s : st) (r : option nat) (s' : st) : Prop :=
  (forall y, live s y -> r <> Some y -> hp s' y = hp s y) /\ (forall y, live s y -> live s' y).
Lemma frame_trans s r s1 s2 : frame s r s1 -> frame s1 r s2 -> frame s r s2.
Proof. intros [A B] [A' B']. split; [|auto]. intros y L Q. rewrite (A' y); auto. Qed.
Lemma frame_weak s r s' : frame s None s' -> frame s r s'.
Proof. intros [A B]. split; [|auto]. intros y L _. apply A; auto. discriminate. Qed.
Lemma frame_set s r c : frame s (Some r) (set_cell s r c).
Proof. split; [|auto]. intros y L Q. cbn [set_cell hp]. apply upd_other. congruence. Qed.
(** From the cell [r] new since [s] on. *)
Lemma frame_new s s1 r s2 : (forall y, live s y -> hp s1 y = hp s y) -> (forall y, live s y -> live s1 y) -> ~ live s r ->
  frame s1 (Some r) s2 -> frame s None s2.
Proof.
  intros A B NL [C D]. split; [|auto]. intros y L _. rewrite (C y); auto. intros Q. injection Q as <-. auto.
Qed.
Lemma clone_frame_all fuel :
  (forall s p c r s', wf s -> ok_ptr N s p -> ok_cache N s c -> clone G fuel s p c = Ok (r, s') -> frame s None s') /\
  (forall s r src i c s', wf s -> ok_loc N s r -> ok_loc N s src -> ok_cache N s c ->
     clone_kvs G fuel s r src i c = Ok s' -> frame s (Some r) s') /\
  (forall s r src i c s', wf s -> ok_loc N s r -> ok_loc N s src -> ok_cache N s c ->
     clone_arr G fuel s r src i c = Ok s' -> frame s (Some r) s').
Proof.
  induction fuel as [|f (IC & IK & IA)].
  { split; [|split]; intros; discriminate. }
  split; [|split].
  - intros s p c r s' I Kp C H. cbn [clone] in H. destruct p as [l|]; [|discriminate H].
    apply ok_ptr_some in Kp.
    destruct (vt_code TTrue <=? vt_code (c_dt (hp s l))).
    { injection H as <- <-. split; auto. }
    destruct (tr_getValue N N G s c (c_dt (hp s l)) I C) as (T & O & _).
    pose proof (getValue_got G s c (c_dt (hp s l)) I C) as GT.
    destruct (getValue G s c (c_dt (hp s l))) as [r0 s1]. cbn [fst snd] in T, O, GT.
    assert (F1 : forall y, live s y -> hp s1 y = hp s y).
    { intros y L. apply (g_frame _ _ _ _ GT); [apply L|]. intros ->. exact (g_new _ _ _ _ GT L). }
    pose proof (g_lives _ _ _ _ GT) as F2. pose proof (g_new _ _ _ _ GT) as NL.
    assert (I1 : wf s1) by apply T. pose proof (ok_loc_tr N N _ _ _ T Kp) as Kp1.
    pose proof (ok_cache_tr N N _ _ _ T C) as C1.
    assert (W1 : forall x, frame s None (set_cell s1 r0 x)) by (intros x; apply (frame_new s s1 r0); auto; apply frame_set).
    destruct (_ && _). { injection H as <- <-. apply W1. }
    destruct (c_dt (hp s l)) eqn:Q;
      try (injection H as <- <-; first [apply W1 | split; [intros y L _; auto|auto]]).
    + apply bind_ok in H as (s3 & H & H2). injection H2 as <- <-.
      assert (T3 : tr N N s1 (set_cell s1 r0 (w_obj (hp s1 r0) (c_unesc (hp s1 l)) (c_kvs (hp s1 r0)) (c_spare (hp s1 r0))))).
      { apply (tr_write N N); auto. apply okc_obj_sub; [apply (cell_ok_at N N); auto|auto]. }
      apply IK in H;
        [|apply T3|exact (ok_loc_tr N N _ _ _ T3 O)|exact (ok_loc_tr N N _ _ _ T3 Kp1)|exact (ok_cache_tr N N _ _ _ T3 C1)].
      apply (frame_new s s1 r0); auto. eapply frame_trans; [apply frame_set|exact H].
    + apply bind_ok in H as (s3 & H & H2). injection H2 as <- <-.
      apply IA in H; auto. apply (frame_new s s1 r0); auto.
  - intros s r src i c s' I Or Os C H. cbn [clone_kvs] in H.
    destruct (nth_error (c_kvs (hp s src)) i) as [[k p]|] eqn:NT; [|injection H as <-; split; auto].
    pose proof (kv_ptr_ok N N s src i k p I Os NT) as Kp.
    apply bind_ok in H as ((x & s1) & H1 & H). pose proof (IC _ _ _ _ _ I Kp C H1) as F1.
    apply (tr_clone N N) in H1 as [T Ox]; auto.
    assert (I1 : wf s1) by apply T. pose proof (ok_loc_tr N N _ _ _ T Or) as Or1.
    assert (T2 : tr N N s1 (set_cell s1 r (push_kv G (hp s1 r) k (Some x)))).
    { apply (tr_write N N); auto; [|apply dt_push]. apply okc_push; [apply (cell_ok_at N N); auto|apply ok_ptr_some; auto]. }
    pose proof (tr_trans N N _ _ _ T T2) as T12.
    apply IK in H; [|apply T2|exact (ok_loc_tr N N _ _ _ T12 Or)|
      exact (ok_loc_tr N N _ _ _ T12 Os)|exact (ok_cache_tr N N _ _ _ T12 C)].
    eapply frame_trans; [apply frame_weak; exact F1|]. eapply frame_trans; [apply frame_set|exact H].
  - intros s r src i c s' I Or Os C H. cbn [clone_arr] in H.
    destruct (nth_error (c_arr (hp s src)) i) as [p|] eqn:NT; [|injection H as <-; split; auto].
    pose proof (arr_ptr_ok N N s src i p I Os NT) as Kp.
    apply bind_ok in H as ((x & s1) & H1 & H). pose proof (IC _ _ _ _ _ I Kp C H1) as F1.
    apply (tr_clone N N) in H1 as [T Ox]; auto.
    assert (I1 : wf s1) by apply T. pose proof (ok_loc_tr N N _ _ _ T Or) as Or1.
    assert (T2 : tr N N s1 (set_cell s1 r (w_arr (hp s1 r) (c_arr (hp s1 r) ++ [Some x])))).
    { apply (tr_write N N); auto. apply okc_app; [apply (cell_ok_at N N); auto|apply ok_ptr_some; auto]. }
    pose proof (tr_trans N N _ _ _ T T2) as T12.
    apply IA in H; [|apply T2|exact (ok_loc_tr N N _ _ _ T12 Or)|
      exact (ok_loc_tr N N _ _ _ T12 Os)|exact (ok_cache_tr N N _ _ _ T12 C)].
    eapply frame_trans; [apply frame_weak; exact F1|]. eapply frame_trans; [apply frame_set|exact H].
Qed.
Lemma set_nth_len {A} t (x : A) : forall l, List.length (set_nth t x l) = List.length l.
Proof. induction t as [|t IH]; intros [|a l]; cbn [set_nth List.length]; auto. Qed.
Lemma length_set_val {A} i (y : A) l : List.length (set_val i y l) = List.length l.
Proof. unfold set_val. destruct (nth_error l i) as [[k x]|] eqn:Q; [|reflexivity]. apply set_nth_len. Qed.

Lemma add_self_loop fuel : forall s l i c s', wf s -> live s l -> ok_cache N s c -> (i < List.length (c_kvs (hp s l)))%nat ->
  add_kvs G fuel s l l i c <> Ok s'.
Proof.
  induction fuel as [|f IH]; intros s l i c s' W L C I H; [discriminate H|].
  rewrite add_kvs_S in H. destruct (nth_error (c_kvs (hp s l)) i) as [[k p]|] eqn:NT; [|apply nth_error_None in NT; lia].
  cbv zeta in H. apply bind_ok in H as ((x & s1) & H1 & H).
  pose proof (ok_of_live s l L) as OL. pose proof (kv_ptr_ok N N s l i k p W OL NT) as Kp.
  destruct (push_cell (hp s l) k None) as (PK0 & PD0 & PU0).
  assert (T0 : tr N N s (set_cell s l (push_kv G (hp s l) k None))).
  { apply (tr_write N N); auto. apply okc_push; [apply (cell_ok_at N N); auto|]. intros z Q. discriminate Q. }
  set (s0 := set_cell s l (push_kv G (hp s l) k None)) in *.
  assert (HR0 : hp s0 l = push_kv G (hp s l) k None) by (unfold s0; cbn [set_cell hp]; apply upd_same).
  pose proof (ok_ptr_tr N N _ _ _ T0 Kp) as Kp0. pose proof (ok_cache_tr N N _ _ _ T0 C) as C0.
  pose proof (proj1 (clone_frame_all f) _ _ _ _ _ (proj1 T0) Kp0 C0 H1) as [F1 F2].
  assert (L0 : live s0 l) by exact L.
  assert (HR1 : hp s1 l = push_kv G (hp s l) k None) by (rewrite F1; [exact HR0|exact L0|discriminate]).
  apply (tr_clone N N) in H1 as [T Ox]; [|apply T0|exact Kp0|exact C0].
  pose proof (ok_of_live s1 l (F2 l L0)) as OL1.
  revert H. set (nc := w_obj (hp s1 l) _ _ _). intros H.
  assert (T2 : tr N N s1 (set_cell s1 l nc)).
  { apply (tr_write N N); [apply T|exact OL1| |reflexivity]. apply okc_set_val; [apply (cell_ok_at N N); auto; apply T|]. apply ok_ptr_some. exact Ox. }
  revert H. apply IH.
  - apply T2.
  - exact (F2 l L0).
  - exact (ok_cache_tr N N _ _ _ T2 (ok_cache_tr N N _ _ _ T C0)).
  - cbn [set_cell hp]. rewrite upd_same. unfold nc. cbn [w_obj c_kvs]. rewrite length_set_val, HR1, PK0, app_length. cbn [List.length]. lia.
Qed.
Lemma arr_self_loop fuel : forall s l i c s', wf s -> live s l -> ok_cache N s c -> (i < List.length (c_arr (hp s l)))%nat ->
  clone_arr G fuel s l l i c <> Ok s'.
Proof.
  induction fuel as [|f IH]; intros s l i c s' W L C I H; [discriminate H|].
  rewrite clone_arr_S in H. destruct (nth_error (c_arr (hp s l)) i) as [p|] eqn:NT; [|apply nth_error_None in NT; lia].
  apply bind_ok in H as ((x & s1) & H1 & H).
  pose proof (ok_of_live s l L) as OL. pose proof (arr_ptr_ok N N s l i p W OL NT) as Kp.
  pose proof (proj1 (clone_frame_all f) _ _ _ _ _ W Kp C H1) as [F1 F2].
  assert (HR1 : hp s1 l = hp s l) by (apply F1; [exact L|discriminate]).
  apply (tr_clone N N) in H1 as [T Ox]; auto.
  pose proof (ok_of_live s1 l (F2 l L)) as OL1.
  assert (T2 : tr N N s1 (set_cell s1 l (w_arr (hp s1 l) (c_arr (hp s1 l) ++ [Some x])))).
  { apply (tr_write N N); [apply T|exact OL1| |reflexivity]. apply okc_app; [apply (cell_ok_at N N); auto; apply T|]. apply ok_ptr_some. exact Ox. }
  revert H. apply IH.
  - apply T2.
  - exact (F2 l L).
  - exact (ok_cache_tr N N _ _ _ T2 (ok_cache_tr N N _ _ _ T C)).
  - cbn [set_cell hp]. rewrite upd_same. cbn [w_arr c_arr]. rewrite HR1, app_length. cbn [List.length]. lia.
Qed.
(** [v.AddFrom(v)] on an object or array that is not empty does not return. *)
Theorem AddFrom_self s l c v : wf s -> live s l -> ok_cache N s c -> rep (hp s) (Some l) v ->
  (exists u kv r, v = VObject u (kv :: r)) \/ (exists x r, v = VArray (x :: r)) ->
  forall fuel s', AddFrom G fuel s l l c <> Ok s'.
Proof.
  intros W L C R [(u & kv & r & ->)|(x & r & ->)] fuel s'.
  - inversion R as [|? ? D F2| | | | | | | | | | | | | |]; subst. unfold AddFrom. rewrite D. cbv zeta.
    assert (C' : ok_cache N s (match c with None => c_own (hp s l) | _ => c end)).
    { destruct c; [exact C|]. apply (own_ok N N); [exact W|]. apply ok_of_live. exact L. }
    assert (T : tr N N s (set_cell s l (w_obj (hp s l) (c_unesc (hp s l)) (c_kvs (hp s l)) (c_spare (hp s l))))).
    { apply (tr_write N N); auto; [apply ok_of_live; exact L|]. apply okc_obj_sub; [|auto]. apply (cell_ok_at N N); auto. apply ok_of_live. exact L. }
    apply add_self_loop.
    + apply T.
    + exact L.
    + exact (ok_cache_tr N N _ _ _ T C').
    + cbn [set_cell hp]. rewrite upd_same. cbn [w_obj c_kvs]. inversion F2. cbn [List.length]. lia.
  - inversion R as [| |? ? D F2| | | | | | | | | | | | |]; subst. unfold AddFrom. rewrite D.
    apply arr_self_loop; auto; [apply (own_ok N N); [exact W|]; apply ok_of_live; exact L|].
    inversion F2. cbn [List.length]. lia.
Qed.
End Copy.
