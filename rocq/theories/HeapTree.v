(** Paths through memory.  [walk h x p] follows the positions in [p] from cell [x]; memory below [x] is
    [treelike] when no cell but the shared constants (the cells below 5) is met on two paths. *)
From Verif Require Import Base Values Tactics HeapModel HeapSpec HeapBase HeapForce.

Definition kid_ptrs (c : cell) : list ptr :=
  match c_dt c with TObject => map snd (c_kvs c) | TArray => c_arr c | _ => [] end.
Fixpoint walk (h : nat -> cell) (x : nat) (path : list nat) : option nat :=
  match path with
  | [] => Some x
  | i :: r => match nth_error (kid_ptrs (h x)) i with Some (Some y) => walk h y r | _ => None end
  end.
Definition treelike (h : nat -> cell) (x : nat) : Prop :=
  forall p q y, (5 <= y)%nat -> walk h x p = Some y -> walk h x q = Some y -> p = q.
(** The same for several starting points at once. *)
Definition bushes (h : nat -> cell) (ps : list ptr) : Prop :=
  forall i j k l p q y, (5 <= y)%nat -> nth_error ps i = Some (Some k) -> nth_error ps j = Some (Some l) ->
    walk h k p = Some y -> walk h l q = Some y -> i = j /\ p = q.

Lemma kid_sees c y : @In ptr (Some y) (kid_ptrs c) <-> sees c y.
Proof. unfold kid_ptrs, sees. destruct (c_dt c); cbn [In]; tauto. Qed.
Lemma kid_reach h x k z : In (Some k) (kid_ptrs (h x)) -> reach h k z -> reach h x z.
Proof. intros I R. eapply reach_trans; [apply reach_child, kid_sees; exact I|exact R]. Qed.
Lemma walk_reach h p : forall x y, walk h x p = Some y -> reach h x y.
Proof.
  induction p as [|i p IH]; intros x y H; cbn [walk] in H; [injection H as ->; apply reach_refl|].
  destruct (nth_error (kid_ptrs (h x)) i) as [[k|]|] eqn:Q; try discriminate.
  eapply kid_reach; [eapply nth_error_In; exact Q|apply IH; exact H].
Qed.
Lemma walk_app h p q : forall x, walk h x (p ++ q) = match walk h x p with Some y => walk h y q | None => None end.
Proof.
  induction p as [|i p IH]; intros x; cbn [app walk]; [reflexivity|].
  destruct (nth_error (kid_ptrs (h x)) i) as [[k|]|]; auto.
Qed.
Lemma reach_walk h x y : reach h x y -> exists p, walk h x p = Some y.
Proof.
  intros R0. induction R0 as [|u z R [p IH] S]; [exists []; reflexivity|]. apply kid_sees in S. apply In_nth_error in S as [i Q].
  exists (p ++ [i]). rewrite walk_app, IH. cbn [walk]. rewrite Q. reflexivity.
Qed.
Lemma walk_same h h' p : forall x, (forall z, reach h x z -> h' z = h z) -> walk h' x p = walk h x p.
Proof.
  induction p as [|i p IH]; intros x F; cbn [walk]; [reflexivity|]. rewrite (F x (reach_refl _ _)).
  destruct (nth_error (kid_ptrs (h x)) i) as [[k|]|] eqn:Q; auto. apply IH. intros z Z. apply F.
  eapply kid_reach; [eapply nth_error_In; exact Q|exact Z].
Qed.
Lemma treelike_frame h h' x : (forall z, reach h x z -> h' z = h z) -> treelike h x -> treelike h' x.
Proof. intros F T p q y L. rewrite !(walk_same h h') by auto. apply T; auto. Qed.
Lemma bushes_frame h h' ps : (forall k z, In (Some k) ps -> reach h k z -> h' z = h z) -> bushes h ps -> bushes h' ps.
Proof.
  intros F B i j k l p q y L Qi Qj. pose proof (nth_error_In _ _ Qi) as Ii. pose proof (nth_error_In _ _ Qj) as Ij.
  rewrite (walk_same h h' p k) by (intros z Z; apply (F k); auto).
  rewrite (walk_same h h' q l) by (intros z Z; apply (F l); auto). eapply B; eauto.
Qed.
Lemma bushes_nil h : bushes h [].
Proof. intros i j k l p q y L Q. destruct i; discriminate. Qed.
Lemma treelike_leaf h x : (forall y, ~ sees (h x) y) -> treelike h x.
Proof.
  intros N. assert (W : forall p y, walk h x p = Some y -> p = []).
  { intros [|i p] y H; [reflexivity|]. cbn [walk] in H. destruct (nth_error (kid_ptrs (h x)) i) as [[k|]|] eqn:Q; try discriminate.
    apply nth_error_In in Q. apply kid_sees in Q. destruct (N k Q). }
  intros p q y L A B. rewrite (W p y A), (W q y B). reflexivity.
Qed.
(** A container that none of its children leads back to. *)
Lemma treelike_kids h r : bushes h (kid_ptrs (h r)) -> (forall k, sees (h r) k -> ~ reach h k r) -> treelike h r.
Proof.
  intros B N [|i p] [|j q] y L Hp Hq; cbn [walk] in *; auto.
  - injection Hp as <-. destruct (nth_error (kid_ptrs (h r)) j) as [[l|]|] eqn:Q; try discriminate. exfalso.
    apply (N l); [apply kid_sees; eapply nth_error_In; exact Q|eapply walk_reach; exact Hq].
  - injection Hq as <-. destruct (nth_error (kid_ptrs (h r)) i) as [[l|]|] eqn:Q; try discriminate. exfalso.
    apply (N l); [apply kid_sees; eapply nth_error_In; exact Q|eapply walk_reach; exact Hp].
  - destruct (nth_error (kid_ptrs (h r)) i) as [[k|]|] eqn:Q1; try discriminate.
    destruct (nth_error (kid_ptrs (h r)) j) as [[l|]|] eqn:Q2; try discriminate.
    destruct (B i j k l p q y L Q1 Q2 Hp Hq) as [-> ->]. reflexivity.
Qed.
Lemma treelike_kid h r i k : (5 <= r)%nat -> treelike h r -> nth_error (kid_ptrs (h r)) i = Some (Some k) -> treelike h k /\ ~ reach h k r.
Proof.
  intros L5 T Q. split.
  - intros p q y L Hp Hq. assert (X : i :: p = i :: q) by (apply (T _ _ y L); cbn [walk]; rewrite Q; auto). congruence.
  - intros R. apply reach_walk in R as [p Hp]. assert (X : i :: p = []) by (apply (T _ _ r L5); cbn [walk]; rewrite ?Q; auto). discriminate.
Qed.
Lemma treelike_bushes h r : treelike h r -> bushes h (kid_ptrs (h r)).
Proof.
  intros T i j k l p q y L Qi Qj Hp Hq. assert (X : i :: p = j :: q) by (apply (T _ _ y L); cbn [walk]; rewrite ?Qi, ?Qj; auto).
  injection X as -> ->. auto.
Qed.
Lemma bushes_app h ps qs : bushes h ps -> bushes h qs ->
  (forall k l z, In (Some k) ps -> In (Some l) qs -> reach h k z -> reach h l z -> (z < 5)%nat) -> bushes h (ps ++ qs).
Proof.
  intros B1 B2 D. assert (NT : forall i (q : ptr), nth_error (ps ++ qs) i = Some q ->
    (i < List.length ps)%nat /\ nth_error ps i = Some q \/ exists j, i = (List.length ps + j)%nat /\ nth_error qs j = Some q).
  { intros i q Q. destruct (Nat.lt_ge_cases i (List.length ps)) as [X|X].
    - left. split; [exact X|]. rewrite nth_error_app1 in Q by exact X. exact Q.
    - right. exists (i - List.length ps)%nat. split; [lia|]. rewrite nth_error_app2 in Q by exact X. exact Q. }
  intros i j k l p q y L Qi Qj Hp Hq. pose proof (walk_reach _ _ _ _ Hp) as Rp. pose proof (walk_reach _ _ _ _ Hq) as Rq.
  destruct (NT _ _ Qi) as [[Li Ni]|(i' & -> & Ni)], (NT _ _ Qj) as [[Lj Nj]|(j' & -> & Nj)].
  - exact (B1 i j k l p q y L Ni Nj Hp Hq).
  - pose proof (D k l y (nth_error_In _ _ Ni) (nth_error_In _ _ Nj) Rp Rq). lia.
  - pose proof (D l k y (nth_error_In _ _ Nj) (nth_error_In _ _ Ni) Rq Rp). lia.
  - destruct (B2 i' j' k l p q y L Ni Nj Hp Hq) as [-> ->]. auto.
Qed.
(** [ps'] is [ps] with [p] at one position, old or new. *)
Definition puts (ps : list ptr) (p : ptr) (ps' : list ptr) : Prop :=
  exists i0, forall i q, nth_error ps' i = Some q -> (i = i0 /\ q = p) \/ (i <> i0 /\ nth_error ps i = Some q).
Lemma puts_app ps p : puts ps p (ps ++ [p]).
Proof.
  exists (List.length ps). intros i q H. destruct (Nat.lt_trichotomy i (List.length ps)) as [L|[->|L]].
  - right. split; [lia|]. rewrite nth_error_app1 in H by auto. exact H.
  - left. rewrite nth_error_app2, Nat.sub_diag in H by auto. cbn in H. injection H as <-. auto.
  - rewrite nth_error_app2 in H by lia. destruct (i - List.length ps)%nat as [|[|n]] eqn:Q; [lia|discriminate|discriminate].
Qed.
Lemma puts_set ps p n : puts ps p (set_nth n p ps).
Proof.
  exists n. revert n. induction ps as [|a ps IH]; intros n i q H.
  - destruct n, i; discriminate.
  - destruct n as [|n], i as [|i]; cbn [set_nth nth_error] in *; try (injection H as <-); auto.
    destruct (IH n i q H) as [[-> ->]|[A B]]; [left; auto|right; split; [lia|auto]].
Qed.
Lemma puts_in ps p ps' q : puts ps p ps' -> In q ps' -> q = p \/ In q ps.
Proof.
  intros [i0 H] I. apply In_nth_error in I as [i Q]. destruct (H i q Q) as [[_ A]|[_ A]]; [auto|right; eapply nth_error_In; exact A].
Qed.
Lemma bushes_puts h ps p ps' : bushes h ps -> puts ps p ps' -> (forall x, p = Some x -> treelike h x) ->
  (forall x k z, p = Some x -> In (Some k) ps -> reach h k z -> reach h x z -> (z < 5)%nat) -> bushes h ps'.
Proof.
  intros B [i0 P] T D i j k l a b y L Qi Qj Ha Hb.
  destruct (P i _ Qi) as [[-> Pi]|[Ni Pi]], (P j _ Qj) as [[-> Pj]|[Nj Pj]].
  - split; [reflexivity|]. rewrite <- Pi in Pj. injection Pj as ->. apply (T k (eq_sym Pi) a b y L Ha Hb).
  - pose proof (D k l y (eq_sym Pi) (nth_error_In _ _ Pj) (walk_reach _ _ _ _ Hb) (walk_reach _ _ _ _ Ha)). lia.
  - pose proof (D l k y (eq_sym Pj) (nth_error_In _ _ Pi) (walk_reach _ _ _ _ Ha) (walk_reach _ _ _ _ Hb)). lia.
  - eapply B; eauto.
Qed.
Lemma bushes_cons h ps x : bushes h ps -> treelike h x -> (forall k z, In (Some k) ps -> reach h k z -> reach h x z -> (z < 5)%nat) ->
  bushes h (Some x :: ps).
Proof.
  intros B T D [|i] [|j] k l a b y L Qi Qj Ha Hb; cbn [nth_error] in *.
  - injection Qi as <-. injection Qj as <-. split; [reflexivity|]. exact (T a b y L Ha Hb).
  - injection Qi as <-. pose proof (D l y (nth_error_In _ _ Qj) (walk_reach _ _ _ _ Hb) (walk_reach _ _ _ _ Ha)). lia.
  - injection Qj as <-. pose proof (D k y (nth_error_In _ _ Qi) (walk_reach _ _ _ _ Ha) (walk_reach _ _ _ _ Hb)). lia.
  - destruct (B i j k l a b y L Qi Qj Ha Hb) as [-> ->]. auto.
Qed.
