(** Paths through memory.  [walk h x p] follows the positions in [p] from cell [x]; a structure is
    [unshared] when no cell is met on two paths.  Values built with cells of their own are unshared, and
    changing what is found on one path changes the whole there and nowhere else. *)
From Verif Require Import Base Values Tactics HeapModel HeapSpec HeapBase HeapConf HeapGet HeapForce HeapTree HeapClone HeapBuild HeapTyped BsonLoadThms.

(** The value [v] with [w] on the path. *)
Fixpoint at_nth {A} (i : nat) (f : A -> A) (l : list A) : list A :=
  match l, i with
  | [], _ => []
  | x :: r, O => f x :: r
  | x :: r, S i => x :: at_nth i f r
  end.
Fixpoint put (path : list nat) (w v : value) : value :=
  match path with
  | [] => w
  | i :: r =>
      match v with
      | VObject u kvs => VObject u (at_nth i (fun kv => (fst kv, put r w (snd kv))) kvs)
      | VArray vs => VArray (at_nth i (put r w) vs)
      | _ => v
      end
  end.
(** Whatever is done to the cell on one path, the structure reads as before except there. *)
Definition apart (h : nat -> cell) (x : nat) (v : value) : Prop :=
  unshared h x /\
  forall path y w h', walk h x path = Some y -> (forall z, reach h x z -> z <> y -> h' z = h z) ->
    rep h' (Some y) w -> rep h' (Some x) (put path w v).

(** The same where the shared constants may be met on several paths. *)
Definition tree_apart (h : nat -> cell) (x : nat) (v : value) : Prop :=
  treelike h x /\
  forall path y w h', walk h x path = Some y -> (5 <= y)%nat -> (forall z, reach h x z -> z <> y -> h' z = h z) ->
    rep h' (Some y) w -> rep h' (Some x) (put path w v).

Lemma reps_but h h' ps vs i f : Forall2 (rep h) ps vs ->
  (forall k, nth_error ps i = Some (Some k) -> forall v, rep h (Some k) v -> rep h' (Some k) (f v)) -> nth_error ps i <> Some None ->
  (forall j k z, j <> i -> nth_error ps j = Some (Some k) -> reach h k z -> h' z = h z) ->
  Forall2 (rep h') ps (at_nth i f vs).
Proof.
  intros F. revert i. induction F as [|p v ps vs R F IH]; intros i A NN B; [destruct i; constructor|].
  assert (REST : forall i, (forall j k z, j <> i -> nth_error (p :: ps) j = Some (Some k) -> reach h k z -> h' z = h z) -> i <> O -> rep h' p v).
  { intros i0 B0 N0. apply (rep_frame h); [exact R|]. intros z (l & -> & Z). apply (B0 O l z); auto. }
  destruct i as [|i]; cbn [at_nth].
  - constructor.
    + destruct p as [k|]; [apply A; [reflexivity|exact R]|destruct NN; reflexivity].
    + clear - F B. assert (B' : forall j k z, nth_error ps j = Some (Some k) -> reach h k z -> h' z = h z) by (intros j k z Q Z; apply (B (S j) k z); auto).
      clear B. induction F as [|q w ps vs R F IH]; constructor.
      * apply (rep_frame h); [exact R|]. intros z (l & -> & Z). apply (B' O l z); auto.
      * apply IH. intros j k z Q. exact (B' (S j) k z Q).
  - constructor; [apply (REST (S i)); auto|]. apply IH; auto. intros j k z N Q. apply (B (S j)); auto.
Qed.
Theorem treelike_apart h x v : rep h (Some x) v -> treelike h x -> tree_apart h x v.
Proof.
  intros R T. split; [exact T|]. intros path. revert x v R T.
  induction path as [|i path IH]; intros x v R T y w h' WK L5 F R'; [injection WK as <-; exact R'|]. pose proof WK as WK'. cbn [walk] in WK.
  destruct (nth_error (kid_ptrs (h x)) i) as [[k|]|] eqn:Q; try discriminate.
  assert (XY : x <> y).
  { intros <-. assert (X : i :: path = []) by (apply (T _ _ x L5); [exact WK'|reflexivity]). discriminate. }
  pose proof (F x (reach_refl _ _) XY) as HX.
  assert (TK : treelike h k).
  { intros p q z L Hp Hq. assert (X : i :: p = i :: q) by (apply (T _ _ z L); cbn [walk]; rewrite Q; auto). congruence. }
  assert (SUB : forall j m z, nth_error (kid_ptrs (h x)) j = Some (Some m) -> reach h m z -> reach h x z).
  { intros j m z Qj Z. eapply kid_reach; [eapply nth_error_In; exact Qj|exact Z]. }
  assert (ONE : forall u, rep h (Some k) u -> rep h' (Some k) (put path w u)).
  { intros u Ru. apply (IH k u Ru TK y w h' WK L5); [|exact R']. intros z Z. apply F. exact (SUB i k z Q Z). }
  assert (OTH : forall j m z, j <> i -> nth_error (kid_ptrs (h x)) j = Some (Some m) -> reach h m z -> h' z = h z).
  { intros j m z NJ Qj Z. apply F; [exact (SUB j m z Qj Z)|]. intros ->. apply reach_walk in Z as [q Hq]. apply NJ.
    assert (X : j :: q = i :: path) by (apply (T _ _ y L5); [cbn [walk]; rewrite Qj; exact Hq|exact WK']). congruence. }
  assert (ALL : forall vs, Forall2 (rep h) (kid_ptrs (h x)) vs -> Forall2 (rep h') (kid_ptrs (h x)) (at_nth i (put path w) vs)).
  { intros vs FV. apply (reps_but h); auto.
    - intros m Qm u. assert (X : m = k) by congruence. subst m. apply ONE.
    - rewrite Q. discriminate. }
  unfold kid_ptrs in ALL, Q. cbn [put].
  inversion R as [|? kvs D F2|? vs D F2|? D|? D|? D|? D|? D|? D|? D|? D|? D|? D|? D|? D|? D]; subst; rewrite D in *;
    try (destruct i; discriminate Q).
  - rewrite <- HX in *. apply rep_obj; [exact D|].
    assert (KS : map fst (c_kvs (h' x)) = map fst kvs /\ Forall2 (rep h) (map snd (c_kvs (h' x))) (map snd kvs)).
    { clear - F2. induction F2 as [|a b l1 l2 [A B] F2 [I1 I2]]; [split; [reflexivity|constructor]|].
      cbn [map]. split; [congruence|constructor; auto]. }
    destruct KS as [KS KR]. apply ALL in KR. revert KR KS. clear. generalize (c_kvs (h' x)). intros l. revert i kvs.
    induction l as [|[a p] l IHl]; intros i [|[b v] kvs] R2 KS; cbn [map fst snd] in *; try discriminate.
    + destruct i; constructor.
    + injection KS as -> KS. destruct i as [|i]; cbn [at_nth fst snd] in *; inversion R2; subst.
      * constructor; [auto|]. clear - KS H4. revert kvs KS H4. induction l as [|[a p0] l IHl]; intros [|[c u] kvs] KS F; cbn [map fst snd] in *; try discriminate; [constructor|].
        injection KS as -> KS. inversion F; subst. constructor; auto.
      * constructor; auto.
  - rewrite <- HX in *. apply rep_arr; auto.
Qed.
Lemma own_put h : (forall x v D, own h x v D -> forall path y w h', walk h x path = Some y ->
    (forall z, reach h x z -> z <> y -> h' z = h z) -> rep h' (Some y) w -> rep h' (Some x) (put path w v)) /\
  (forall ps vs D, owns h ps vs D -> forall i k path y w h', nth_error ps i = Some (Some k) -> walk h k path = Some y ->
    (forall z p, In (Some p) ps -> reach h p z -> z <> y -> h' z = h z) -> rep h' (Some y) w ->
    Forall2 (rep h') ps (at_nth i (put path w) vs)).
Proof.
  apply own_mut.
  - intros x v D L R B DX [|i path] y w h' WK F R'; cbn [walk put] in *; [injection WK as <-; exact R'|].
    rewrite (kids_leaf _ _ _ L R) in WK. destruct i; discriminate.
  - intros x kvs D DK DT KS OS IH DX ND SU [|i path] y w h' WK F R'; cbn [walk put] in *; [injection WK as <-; exact R'|].
    assert (KX : kid_ptrs (h x) = map snd (c_kvs (h x))) by (unfold kid_ptrs; rewrite DT; reflexivity). rewrite KX in WK.
    destruct (nth_error (map snd (c_kvs (h x))) i) as [[k|]|] eqn:Q; try discriminate.
    assert (XY : x <> y).
    { intros <-. apply ND. apply (proj2 (proj2 (own_rep_all h) _ _ _ OS) k x); [eapply nth_error_In; exact Q|eapply walk_reach; exact WK]. }
    pose proof (F x (reach_refl _ _) XY) as HX.
    assert (R2 : Forall2 (rep h') (map snd (c_kvs (h x))) (at_nth i (put path w) (map snd kvs))).
    { apply (IH i k path y w h'); auto. intros z p I Z NZ. apply F; auto. eapply kid_reach; [rewrite KX; exact I|exact Z]. }
    rewrite <- HX in *. apply rep_obj; [exact DT|]. revert R2 KS. clear. generalize (c_kvs (h' x)). intros l. revert i kvs.
    induction l as [|[a p] l IHl]; intros i [|[b v] kvs] R2 KS; cbn [map fst snd] in *; try discriminate.
    + destruct i; constructor.
    + injection KS as -> KS. destruct i as [|i]; cbn [at_nth fst snd] in *; inversion R2; subst.
      * constructor; [auto|]. clear - KS H4. revert kvs KS H4. induction l as [|[a p0] l IHl]; intros [|[c u] kvs] KS F; cbn [map fst snd] in *; try discriminate; [constructor|].
        injection KS as -> KS. inversion F; subst. constructor; auto.
      * constructor; auto.
  - intros x vs D DK DT OS IH DX ND SU [|i path] y w h' WK F R'; cbn [walk put] in *; [injection WK as <-; exact R'|].
    assert (KX : kid_ptrs (h x) = c_arr (h x)) by (unfold kid_ptrs; rewrite DT; reflexivity). rewrite KX in WK.
    destruct (nth_error (c_arr (h x)) i) as [[k|]|] eqn:Q; try discriminate.
    assert (XY : x <> y).
    { intros <-. apply ND. apply (proj2 (proj2 (own_rep_all h) _ _ _ OS) k x); [eapply nth_error_In; exact Q|eapply walk_reach; exact WK]. }
    pose proof (F x (reach_refl _ _) XY) as HX.
    assert (R2 : Forall2 (rep h') (c_arr (h x)) (at_nth i (put path w) vs)).
    { apply (IH i k path y w h'); auto. intros z p I Z NZ. apply F; auto. eapply kid_reach; [rewrite KX; exact I|exact Z]. }
    rewrite <- HX in *. apply rep_arr; auto.
  - intros D i k path y w h' H. destruct i; discriminate.
  - intros y v ps vs D1 D2 D O1 I1 O2 I2 DJ S1 S2 i k path u w h' H WK F R'.
    destruct (proj1 (own_rep_all h) _ _ _ O1) as [RY AY]. destruct (proj2 (own_rep_all h) _ _ _ O2) as [RP AP].
    destruct i as [|i]; cbn [nth_error at_nth] in *.
    + injection H as <-. constructor; [apply (I1 path u w h' WK); auto; intros z Z NZ; eapply F; eauto; left; auto|].
      assert (DU : D1 u) by (apply AY; eapply walk_reach; exact WK).
      assert (X : Forall2 (rep h) ps vs -> (forall z p, In (Some p) ps -> reach h p z -> h' z = h z) -> Forall2 (rep h') ps vs).
      { clear. intros FF. induction FF as [|p v ps vs R FF IH]; intros K; constructor.
        - apply (rep_frame h); auto. intros z (l & -> & Z). eapply K; [left; reflexivity|exact Z].
        - apply IH. intros z q I Z. eapply K; [right; exact I|exact Z]. }
      apply X; auto. intros z p I Z. apply (F z p); auto; [right; auto|]. intros ->. exact (DJ u DU (AP p u I Z)).
    + assert (DU : D2 u) by (apply (AP k); [eapply nth_error_In; exact H|eapply walk_reach; exact WK]).
      constructor.
      * apply (rep_frame h); auto. intros z (l & E & Z). injection E as <-. apply (F z y); auto; [left; auto|]. intros ->. exact (DJ u (AY _ Z) DU).
      * apply (I2 i k path u w h' H WK); auto. intros z p I Z NZ. apply (F z p); auto. right; auto.
Qed.
Theorem own_apart h x v D : own h x v D -> apart h x v.
Proof. intros O. split; [exact (proj1 (own_walk h) _ _ _ O)|exact (proj1 (own_put h) _ _ _ O)]. Qed.
