(** BSON decoding into memory: proofs. *)
From Verif Require Import Base Values Tactics BsonModel BsonSpec BsonThms HeapModel MsgLoadModel ReflectModel BsonLoadModel HeapSpec
  HeapBase HeapConf HeapGet HeapCalls HeapObj HeapForce HeapTree HeapClone HeapTyped MsgLoadThms.

(** ** Trees in memory with the cells they use *)
Definition leaf_value (v : value) : Prop :=
  match v with VObject _ _ | VArray _ | VNilP => False | _ => True end.
Inductive own (h : nat -> cell) : nat -> value -> nat_set -> Prop :=
| own_leaf x v (D : nat_set) : leaf_value v -> rep h (Some x) v -> (v = VNull -> c_bin (h x) = []) -> D x -> own h x v D
| own_obj x kvs (D DK : nat_set) : c_dt (h x) = TObject -> map fst (c_kvs (h x)) = map fst kvs ->
    owns h (map snd (c_kvs (h x))) (map snd kvs) DK -> D x -> ~ DK x -> (forall z, DK z -> D z) ->
    own h x (VObject (c_unesc (h x)) kvs) D
| own_arr x vs (D DK : nat_set) : c_dt (h x) = TArray -> owns h (c_arr (h x)) vs DK -> D x -> ~ DK x ->
    (forall z, DK z -> D z) -> own h x (VArray vs) D
with owns (h : nat -> cell) : list ptr -> list value -> nat_set -> Prop :=
| owns_nil D : owns h [] [] D
| owns_cons y v ps vs (D1 D2 D : nat_set) : own h y v D1 -> owns h ps vs D2 -> (forall z, D1 z -> ~ D2 z) ->
    (forall z, D1 z -> D z) -> (forall z, D2 z -> D z) -> owns h (Some y :: ps) (v :: vs) D.
Scheme own_rect2 := Induction for own Sort Prop with owns_rect2 := Induction for owns Sort Prop.
Combined Scheme own_mut from own_rect2, owns_rect2.

Lemma leaf_sees h x v : leaf_value v -> rep h (Some x) v -> forall y, ~ sees (h x) y.
Proof.
  intros L R y. unfold sees. inversion R; subst; cbn [leaf_value] in L; try (destruct L; fail);
    match goal with H : c_dt (h x) = _ |- _ => rewrite H end; auto.
Qed.
Lemma leaf_frame h h' x v : leaf_value v -> rep h (Some x) v -> h' x = h x -> rep h' (Some x) v.
Proof.
  intros L R Q. apply (rep_frame h); auto. intros z (l & E & Z). injection E as <-.
  apply reach_leaf in Z; [subst; exact Q|]. eapply leaf_sees; eauto.
Qed.
Lemma own_frame_all h h' :
  (forall x v D, own h x v D -> (forall z, D z -> h' z = h z) -> own h' x v D) /\
  (forall ps vs D, owns h ps vs D -> (forall z, D z -> h' z = h z) -> owns h' ps vs D).
Proof.
  apply own_mut.
  - intros x v D L R B DX F. pose proof (F x DX) as Q. apply own_leaf; auto; [eapply leaf_frame; eauto|]. rewrite Q. auto.
  - intros x kvs D DK DT KS OS IH DX ND SU F. pose proof (F x DX) as Q. rewrite <- Q.
    apply (own_obj h' x kvs D DK); rewrite ?Q; auto.
  - intros x vs D DK DT OS IH DX ND SU F. pose proof (F x DX) as Q. apply (own_arr h' x vs D DK); rewrite ?Q; auto.
  - intros. constructor.
  - intros y v ps vs D1 D2 D O1 I1 O2 I2 DJ S1 S2 F. apply (owns_cons h' y v ps vs D1 D2 D); auto.
Qed.
Definition own_frame h h' := proj1 (own_frame_all h h').
Definition owns_frame h h' := proj2 (own_frame_all h h').
Lemma own_weak h x v D (D' : nat_set) : own h x v D -> (forall z, D z -> D' z) -> own h x v D'.
Proof.
  intros O S. destruct O as [x v D L R B DX|x kvs D DK DT KS OS DX ND SU|x vs D DK DT OS DX ND SU].
  - apply own_leaf; auto.
  - apply (own_obj h x kvs D' DK); auto.
  - apply (own_arr h x vs D' DK); auto.
Qed.
Lemma owns_weak h ps vs D (D' : nat_set) : owns h ps vs D -> (forall z, D z -> D' z) -> owns h ps vs D'.
Proof. intros O S. destruct O as [|y v ps vs D1 D2 D O1 O2 DJ S1 S2]; [constructor|]. apply (owns_cons h y v ps vs D1 D2); auto. Qed.
Lemma own_in h x v D : own h x v D -> D x.
Proof. intros O. destruct O; auto. Qed.
Lemma own_rep_all h :
  (forall x v D, own h x v D -> rep h (Some x) v /\ forall z, reach h x z -> D z) /\
  (forall ps vs D, owns h ps vs D -> Forall2 (rep h) ps vs /\ forall y z, In (Some y) ps -> reach h y z -> D z).
Proof.
  apply own_mut.
  - intros x v D L R B DX. split; [exact R|]. intros z Z. apply reach_leaf in Z; [subst; auto|]. eapply leaf_sees; eauto.
  - intros x kvs D DK DT KS OS [IH1 IH2] DX ND SU. split.
    + apply rep_obj; auto. clear - KS IH1. revert kvs KS IH1. generalize (c_kvs (h x)).
      induction l as [|[k p] l IH]; intros [|[k' v] kvs] KS F; cbn [map fst snd] in *; try discriminate; [constructor|].
      injection KS as -> KS. inversion F; subst. constructor; auto.
    + intros z Z. apply reach_cases in Z as [->|(y & S & Z)]; [auto|]. unfold sees in S. rewrite DT in S. eauto.
  - intros x vs D DK DT OS [IH1 IH2] DX ND SU. split; [apply rep_arr; auto|].
    intros z Z. apply reach_cases in Z as [->|(y & S & Z)]; [auto|]. unfold sees in S. rewrite DT in S. eauto.
  - intros. split; [constructor|]. intros y z [].
  - intros y v ps vs D1 D2 D O1 [I1 J1] O2 [I2 J2] DJ S1 S2. split; [constructor; auto|].
    intros y' z [Q|Q] Z; [injection Q as <-; auto|eauto].
Qed.
Lemma owns_length h ps vs D : owns h ps vs D -> List.length ps = List.length vs.
Proof. induction 1; cbn; congruence. Qed.

Lemma set_nth_same {A} (l : list A) : forall i x, nth_error l i = Some x -> set_nth i x l = l.
Proof. induction l as [|a l IH]; intros [|i] x H; cbn in *; try discriminate; [congruence|]. rewrite IH; auto. Qed.

(** One element taken out, to be put back changed. *)
Lemma owns_nth h ps vs D : owns h ps vs D -> forall i p, nth_error ps i = Some p ->
  exists y v (Dy Dr : nat_set), p = Some y /\ nth_error vs i = Some v /\ own h y v Dy /\
    (forall z, Dy z -> D z) /\ (forall z, Dr z -> D z) /\ (forall z, Dy z -> ~ Dr z) /\
    forall h' v' (Dy' : nat_set), own h' y v' Dy' -> (forall z, Dr z -> h' z = h z) -> (forall z, Dy' z -> ~ Dr z) ->
      owns h' ps (set_nth i v' vs) (fun z => Dr z \/ Dy' z).
Proof.
  induction 1 as [|y v ps vs D1 D2 D O1 O2 IH DJ S1 S2]; intros [|i] p N; cbn in N; try discriminate.
  - injection N as <-. exists y, v, D1, D2. split; [reflexivity|]. split; [reflexivity|]. split; [exact O1|].
    split; [exact S1|]. split; [exact S2|]. split; [exact DJ|]. intros h' v' Dy' O F DJ'. cbn [set_nth].
    apply (owns_cons h' y v' ps vs Dy' D2); auto. eapply owns_frame; eauto.
  - destruct (IH i p N) as (y' & w & Dy & Dr & -> & NV & OY & SY & SR & DY & RB).
    exists y', w, Dy, (fun z => D1 z \/ Dr z). split; [reflexivity|]. split; [exact NV|]. split; [exact OY|].
    split; [auto|]. split; [intros z [Z|Z]; auto|].
    split; [intros z Z [K|K]; [exact (DJ z K (SY z Z))|exact (DY z Z K)]|].
    intros h' v' Dy' O F DJ'. cbn [set_nth].
    apply (owns_cons h' y v ps _ D1 (fun z => Dr z \/ Dy' z)).
    + eapply own_frame; eauto.
    + apply RB; auto. intros z Z K. exact (DJ' z Z (or_intror K)).
    + intros z Z [K|K]; [exact (DJ z Z (SR z K))|exact (DJ' z K (or_introl Z))].
    + auto.
    + intros z [Z|Z]; auto.
Qed.
Lemma owns_app h ps vs D y v (Dy : nat_set) : owns h ps vs D -> own h y v Dy -> (forall z, Dy z -> ~ D z) ->
  owns h (ps ++ [Some y]) (vs ++ [v]) (fun z => D z \/ Dy z).
Proof.
  intros O OY. induction O as [D|y1 v1 ps vs D1 D2 D O1 O2 IH DJ S1 S2]; intros DI; cbn [app].
  - apply (owns_cons h y v [] [] Dy (fun _ => False)); auto; [constructor|intros z []].
  - apply (owns_cons h y1 v1 _ _ D1 (fun z => D2 z \/ Dy z)); auto.
    + apply IH. intros z Z K. exact (DI z Z (S2 z K)).
    + intros z Z [K|K]; [exact (DJ z Z K)|exact (DI z K (S1 z Z))].
    + intros z [Z|Z]; auto.
Qed.

(** ** Steps that change the cells [D] only and may add cells *)
Section Steps.
Variable E : env.
Variable G : nat -> nat.
Notation N := none_set.
Record chg (s : st) (c : option nat) (D : nat_set) (s' : st) (D' : nat_set) : Prop := {
  ch_wf : wf s';
  ch_lives : forall z, live s z -> live s' z;
  ch_frame : forall z, live s z -> ~ D z -> hp s' z = hp s z;
  ch_new : forall z, D' z -> (5 <= z)%nat /\ live s' z /\ (D z \/ ~ live s z);
  ch_conf : forall P PC s0, conf P PC s0 s -> from_ok PC s0 c -> (forall z, D z -> mine P s0 z) ->
              conf P PC s0 s' /\ forall z, D' z -> mine P s0 z;
  ch_tr : forall P PC, inv P PC s -> ok_cache PC s c -> (forall z, D z -> ok_loc P s z) ->
            tr P PC s s' /\ forall z, D' z -> ok_loc P s' z }.
Definition good (s : st) (D : nat_set) : Prop := forall z, D z -> (5 <= z)%nat /\ live s z.
Lemma chg_good s c D s' D' : chg s c D s' D' -> good s' D'.
Proof. intros C z Z. destruct (ch_new _ _ _ _ _ C z Z) as (A & B & _). auto. Qed.
Lemma chg_cache s c D s' D' : chg s c D s' D' -> wf s -> good s D -> ok_cache N s c -> ok_cache N s' c.
Proof.
  intros C W GD O. eapply (ok_cache_tr N N); [|exact O].
  apply (ch_tr _ _ _ _ _ C N N W O). intros z Z. split; [apply (GD z Z)|intros []].
Qed.
Lemma chg_refl s c D : wf s -> good s D -> chg s c D s D.
Proof.
  intros W GD. constructor; auto.
  - intros z Z. destruct (GD z Z). auto.
  - intros P PC I O K. split; [apply tr_refl; auto|auto].
Qed.
Lemma chg_trans s c D s1 D1 s2 D2 : wf s -> chg s c D s1 D1 -> chg s1 c D1 s2 D2 -> chg s c D s2 D2.
Proof.
  intros W A B. constructor.
  - apply B.
  - intros z Z. apply (ch_lives _ _ _ _ _ B), (ch_lives _ _ _ _ _ A), Z.
  - intros z Z ND. rewrite (ch_frame _ _ _ _ _ B); [apply (ch_frame _ _ _ _ _ A); auto|apply (ch_lives _ _ _ _ _ A), Z|].
    intros K. destruct (ch_new _ _ _ _ _ A z K) as (_ & _ & [Q|Q]); auto.
  - intros z Z. destruct (ch_new _ _ _ _ _ B z Z) as (A1 & A2 & [Q|Q]).
    + destruct (ch_new _ _ _ _ _ A z Q) as (_ & _ & K). auto.
    + split; [auto|]. split; [auto|]. right. intros K. apply Q, (ch_lives _ _ _ _ _ A), K.
  - intros P PC s0 C F M. destruct (ch_conf _ _ _ _ _ A P PC s0 C F M) as [C1 M1]. apply (ch_conf _ _ _ _ _ B); auto.
  - intros P PC I O K. destruct (ch_tr _ _ _ _ _ A P PC I O K) as [T1 K1].
    destruct (ch_tr _ _ _ _ _ B P PC (proj1 T1) (ok_cache_tr P PC _ _ _ T1 O) K1) as [T2 K2].
    split; [exact (tr_trans P PC _ _ _ T1 T2)|exact K2].
Qed.
Lemma chg_sub s c D s' D' (D2 : nat_set) : chg s c D s' D' -> (forall z, D2 z -> D' z) -> chg s c D s' D2.
Proof.
  intros [A1 A2 A3 A4 A5 A6] S. constructor; auto.
  - intros P PC s0 C F M. destruct (A5 P PC s0 C F M). auto.
  - intros P PC I O K. destruct (A6 P PC I O K). auto.
Qed.
(** A step on a part of the cells. *)
Lemma chg_part s c (D0 Dx Dx' : nat_set) s' : good s D0 -> (forall z, Dx z -> D0 z) -> chg s c Dx s' Dx' ->
  chg s c D0 s' (fun z => (D0 z /\ ~ Dx z) \/ Dx' z).
Proof.
  intros GD S [A1 A2 A3 A4 A5 A6]. constructor; auto.
  - intros z [[Z NZ]|Z].
    + destruct (GD z Z). auto.
    + destruct (A4 z Z) as (B1 & B2 & [B|B]); auto.
  - intros P PC s0 C F M. destruct (A5 P PC s0 C F) as [B1 B2]; [auto|]. split; [exact B1|]. intros z [[Z _]|Z]; auto.
  - intros P PC I O K. destruct (A6 P PC I O) as [B1 B2]; [auto|]. split; [exact B1|].
    intros z [[Z _]|Z]; [exact (ok_loc_tr P PC _ _ _ B1 (K z Z))|auto].
Qed.
Lemma chg_set s c (D : nat_set) l nc : wf s -> good s D -> D l ->
  (forall P PC, ok_cell P PC s (hp s l) -> (forall z, D z -> ok_loc P s z) -> ok_cell P PC s nc) ->
  chg s c D (set_cell s l nc) D.
Proof.
  intros W GD L OK. destruct (GD l L) as [L5 LL].
  assert (T : forall P PC, inv P PC s -> (forall z, D z -> ok_loc P s z) -> tr P PC s (set_cell s l nc)).
  { intros P PC I K. apply tr_set_cell; auto; [|intros; lia]. apply OK; auto. apply (cell_ok_at P PC); auto. }
  constructor.
  - apply (T N N W). intros z Z. split; [apply (GD z Z)|intros []].
  - intros z Z. exact Z.
  - intros z Z NZ. cbn [set_cell hp]. apply upd_other. intros ->. auto.
  - intros z Z. destruct (GD z Z). auto.
  - intros P PC s0 C F M. split; [apply conf_set; auto|auto].
  - intros P PC I O K. split; [apply T; auto|]. intros z Z. exact (ok_loc_tr P PC _ _ _ (T P PC I K) (K z Z)).
Qed.
Lemma chg_get s c t r s1 (D : nat_set) : wf s -> ok_cache N s c -> good s D -> getValue G s c t = (r, s1) ->
  chg s c D s1 (fun z => D z \/ z = r) /\ clean (hp s1 r) t /\ ~ live s r /\ (forall z, live s z -> hp s1 z = hp s z).
Proof.
  intros W OC GD H. destruct (get_base G s c t r s1 W OC H) as [B CL].
  split; [|split; [exact CL|split; [exact (b_new _ _ _ _ B)|exact (b_frame _ _ _ _ B)]]]. constructor.
  - apply (b_tr _ _ _ _ B N N W OC).
  - exact (b_lives _ _ _ _ B).
  - intros z Z _. apply (b_frame _ _ _ _ B); auto.
  - intros z [Z| ->].
    + destruct (GD z Z). split; [auto|]. split; [apply (b_lives _ _ _ _ B); auto|auto].
    + split; [exact (b_5 _ _ _ _ B)|]. split; [exact (b_live _ _ _ _ B)|right; exact (b_new _ _ _ _ B)].
  - intros P PC s0 C F M. destruct (b_conf _ _ _ _ B P PC s0 C F) as [C1 M1]. split; [exact C1|]. intros z [Z| ->]; auto.
  - intros P PC I O K. destruct (b_tr _ _ _ _ B P PC I O) as [T1 O1]. split; [exact T1|].
    intros z [Z| ->]; [exact (ok_loc_tr P PC _ _ _ T1 (K z Z))|exact O1].
Qed.
Lemma chg_reset s c (D : nat_set) l t : wf s -> good s D -> D l ->
  chg s c D (set_cell s l (reset_cell (hp s l) t)) D.
Proof. intros W GD L. apply chg_set; auto. intros P PC O _. apply okc_reset; auto. Qed.

(** ** The cell of one element *)
Definition vt_of (k : bkind) : vtype := match k with KObj => TObject | KArr => TArray | KNull => TNull end.
Lemma own_kind h x v D k : own h x v D -> vt_eqb (c_dt (h x)) (vt_of k) = same_kind k v.
Proof.
  intros O. apply (proj1 (own_rep_all h)) in O as [R _].
  inversion R as [|l kvs DT F|l vs DT F|l DT|l DT|l DT|l DT|l DT|l DT|l DT|l DT|l DT|l DT|l DT|l DT|l DT]; subst; rewrite DT; destruct k; reflexivity.
Qed.
Lemma own_empty h x k (D : nat_set) : clean (h x) (vt_of k) -> D x -> own h x (empty_of k) D.
Proof.
  intros (DT & _ & U & K & _ & B & A) DX. destruct k; cbn [vt_of empty_of] in *.
  - rewrite <- U. apply (own_obj h x [] D (fun _ => False)); auto; rewrite ?K; [reflexivity|constructor|intros z []].
  - apply (own_arr h x [] D (fun _ => False)); auto; rewrite ?A; [constructor|intros z []].
  - apply own_leaf; auto; [exact I|]. constructor. exact DT.
Qed.
Definition slot_ok (s : st) c (D : nat_set) (l : nat) (w : value) (put : value -> value) (r : res (nat * st)) : Prop :=
  exists x s0 (D0 Dx : nat_set), r = Ok (x, s0) /\ chg s c D s0 D0 /\ (forall z, Dx z -> D0 z) /\ own (hp s0) x w Dx /\
    forall h u (D1 : nat_set), own h x u D1 -> (forall z, D0 z -> ~ Dx z -> h z = hp s0 z) -> (forall z, D1 z -> Dx z \/ ~ D0 z) ->
      own h l (put u) (fun z => (D0 z /\ ~ Dx z) \/ D1 z).

Lemma find_key_fst {A B} (a : list (bytes * A)) : forall (b : list (bytes * B)) k, map fst a = map fst b -> find_key E a k = find_key E b k.
Proof.
  induction a as [|[x p] a IH]; intros [|[y q] b] k H; cbn [map fst find_key] in *; try discriminate; auto.
  injection H as -> H. rewrite (IH b k H). reflexivity.
Qed.
Lemma unescape_fst {A B} u (a : list (bytes * A)) (b : list (bytes * B)) : map fst a = map fst b ->
  map fst (unescape_keys E u a) = map fst (unescape_keys E u b).
Proof.
  intros H. unfold unescape_keys. destruct u; [exact H|]. rewrite !map_map. cbn [fst].
  rewrite <- (map_map fst (x_unescape E) a), <- (map_map fst (x_unescape E) b), H. reflexivity.
Qed.
Lemma index_fst {A B} u (a : list (bytes * A)) (b : list (bytes * B)) k : map fst a = map fst b ->
  fst (index_by_name E u a k) = fst (index_by_name E u b k) /\
  fst (snd (index_by_name E u a k)) = fst (snd (index_by_name E u b k)) /\
  map fst (snd (snd (index_by_name E u a k))) = map fst (snd (snd (index_by_name E u b k))).
Proof.
  intros H. unfold index_by_name. rewrite (find_key_fst a b k H).
  rewrite (find_key_fst (unescape_keys E u a) (unescape_keys E u b) k (unescape_fst u a b H)).
  pose proof (unescape_fst u a b H).
  destruct (negb u && no_backslash k); [destruct (find_key E b k)|]; cbn [fst snd]; auto.
Qed.
Lemma fst_set_val {A} i (x : A) l : map fst (set_val i x l) = map fst l.
Proof.
  unfold set_val. destruct (nth_error l i) as [[k y]|] eqn:Q; auto. rewrite map_set_nth. cbn [fst].
  apply set_nth_same. rewrite nth_error_map, Q. reflexivity.
Qed.
Lemma snd_set_val {A} i (x : A) l : map snd (set_val i x l) = set_nth i x (map snd l).
Proof.
  unfold set_val. destruct (nth_error l i) as [[k y]|] eqn:Q; [rewrite map_set_nth; reflexivity|].
  symmetry. clear - Q. revert i Q. induction l as [|a l IH]; intros [|i] Q; cbn in *; try discriminate; auto. rewrite IH; auto.
Qed.

Lemma find_key_bound {A} (l : list (bytes * A)) k : forall i, find_key E l k = Some i -> (i < List.length l)%nat.
Proof.
  induction l as [|[x p] l IH]; cbn [find_key List.length]; intros i H; [discriminate|].
  destruct (key_match E x k); [injection H as <-; lia|]. destruct (find_key E l k) as [j|]; [|discriminate].
  cbn in H. injection H as <-. specialize (IH j eq_refl). lia.
Qed.
Lemma index_bound {A} u (a : list (bytes * A)) k i u' a' : index_by_name E u a k = (Some i, (u', a')) -> (i < List.length a')%nat.
Proof.
  unfold index_by_name. intros H. destruct (negb u && no_backslash k); [destruct (find_key E a k) eqn:Q|].
  - injection H as <- <- <-. eapply find_key_bound; eauto.
  - injection H as H <- <-. eapply find_key_bound; eauto.
  - injection H as H <- <-. eapply find_key_bound; eauto.
Qed.

(** An element that is there already. *)
Lemma reuse_ok s c (D DK : nat_set) ps vs i p k : wf s -> good s D -> (forall z, DK z -> D z) -> owns (hp s) ps vs DK ->
  nth_error ps i = Some p ->
  exists y old (Dy : nat_set), p = Some y /\ nth_error vs i = Some old /\ ReadOnly y = false /\
    let s0 := if vt_eqb (c_dt (hp s y)) (vt_of k) then s else Reset s y (vt_of k) in
    chg s c D s0 D /\ own (hp s0) y (reuse k old) Dy /\ (forall z, Dy z -> DK z) /\ (forall z, ~ Dy z -> hp s0 z = hp s z) /\
    forall h u (D1 : nat_set), own h y u D1 -> (forall z, DK z -> ~ Dy z -> h z = hp s z) ->
      (forall z, D1 z -> Dy z \/ ~ DK z) ->
      exists DK' : nat_set, owns h ps (set_nth i u vs) DK' /\ forall z, DK' z -> (DK z /\ ~ Dy z) \/ D1 z.
Proof.
  intros W GD S OS NE. destruct (owns_nth _ _ _ _ OS i p NE) as (y & old & Dy & Dr & -> & NV & OY & SY & SR & DJ & RB).
  pose proof (own_in _ _ _ _ OY) as DY. destruct (GD y (S y (SY y DY))) as [Y5 YL].
  pose proof (proj2 (ReadOnly_ge y) Y5) as RO.
  exists y, old, Dy. split; [reflexivity|]. split; [exact NV|]. split; [exact RO|].
  pose proof (own_kind _ _ _ _ k OY) as KD. unfold reuse. rewrite KD. unfold Reset. rewrite RO.
  cbv zeta. split; [destruct (same_kind k old); [apply chg_refl; auto|apply chg_reset; auto]|].
  split; [destruct (same_kind k old); [exact OY|apply own_empty; [cbn [set_cell hp]; rewrite upd_same; apply clean_reset|exact DY]]|].
  split; [exact SY|].
  split; [intros z NZ; destruct (same_kind k old); [reflexivity|]; cbn [set_cell hp]; apply upd_other; intros ->; auto|].
  intros h u D1 O F DI. exists (fun z => Dr z \/ D1 z). split.
  - apply RB; auto.
    + intros z Z. apply F; auto. intros K. exact (DJ z K Z).
    + intros z Z K. destruct (DI z Z) as [Q|Q]; [exact (DJ z Q K)|exact (Q (SR z K))].
  - intros z [Z|Z]; auto. left. split; [auto|]. intros K. exact (DJ z K Z).
Qed.

Lemma slot_obj s c (D : nat_set) l u kvs key ai k : wf s -> ok_cache N s c -> good s D -> own (hp s) l (VObject u kvs) D ->
  slot_ok s c D l (cell_at E false (VObject u kvs) key ai k) (store_at E (VObject u kvs) key ai)
    (hb_slot E G false s l key ai (vt_of k) c).
Proof.
  intros W OC GD O. inversion O as [? ? ? L|x kvs0 D' DK DT KS OS DL ND SU|]; subst; [destruct L|].
  cbn [hb_slot]. unfold SetKeyCached. rewrite DT. change (vt_eqb TObject TArray) with false. change (vt_eqb TObject TObject) with true.
  cbn [andb]. cbv zeta. unfold obj_index. cbn [cell_at].
  pose proof (index_fst (c_unesc (hp s l)) (c_kvs (hp s l)) kvs key KS) as (I1 & I2 & I3).
  pose proof (snd_index_by_name E (c_unesc (hp s l)) (c_kvs (hp s l)) key) as M1.
  pose proof (snd_index_by_name E (c_unesc (hp s l)) kvs key) as M2.
  pose proof (index_bound (c_unesc (hp s l)) (c_kvs (hp s l)) key) as IB.
  destruct (index_by_name E (c_unesc (hp s l)) (c_kvs (hp s l)) key) as [ri [u1 ks1]].
  assert (ST : forall x, store_at E (VObject (c_unesc (hp s l)) kvs) key ai x =
     let '(r, (u', m)) := index_by_name E (c_unesc (hp s l)) kvs key in
     VObject u' (match r with Some i => set_val i x m | None => m ++ [(key, x)] end)).
  { intros x. cbn [store_at]. unfold set_key_value, obj_set. destruct (index_by_name E (c_unesc (hp s l)) kvs key) as [[j|] [? ?]]; reflexivity. }
  revert ST. destruct (index_by_name E (c_unesc (hp s l)) kvs key) as [ri' [u1' kvs1]]. intros ST. cbn [fst snd] in *. subst ri' u1'.
  assert (C2 : chg s c D (set_cell s l (w_obj (hp s l) u1 ks1 (c_spare (hp s l)))) D).
  { apply chg_set; auto. intros P PC OK _. apply okc_obj_sub; auto. intros z Z. rewrite <- M1. exact Z. }
  set (s2 := set_cell s l _) in *. pose proof (ch_wf _ _ _ _ _ C2) as W2. pose proof (chg_good _ _ _ _ _ C2) as GD2.
  pose proof (chg_cache _ _ _ _ _ C2 W GD OC) as OC2.
  assert (HL : hp s2 l = w_obj (hp s l) u1 ks1 (c_spare (hp s l))) by (subst s2; cbn [set_cell hp]; apply upd_same).
  assert (OS2 : owns (hp s2) (map snd ks1) (map snd kvs1) DK).
  { rewrite M1, M2. eapply owns_frame; [exact OS|]. intros z Z. subst s2. cbn [set_cell hp]. apply upd_other. intros ->. auto. }
  assert (HD : c_dt (hp s2 l) = TObject) by (rewrite HL; exact DT).
  assert (HU : c_unesc (hp s2 l) = u1) by (rewrite HL; reflexivity).
  assert (HK : c_kvs (hp s2 l) = ks1) by (rewrite HL; reflexivity).
  clearbody s2. destruct ri as [i|].
  - rewrite HK. specialize (IB i u1 ks1 eq_refl).
    destruct (nth_error ks1 i) as [[k1 p]|] eqn:NE; [|apply nth_error_None in NE; lia].
    assert (NP : nth_error (map snd ks1) i = Some p) by (rewrite nth_error_map, NE; reflexivity).
    destruct (reuse_ok s2 c D DK _ _ i p k W2 GD2 SU OS2 NP) as (y & old & Dy & -> & NV & RO & C3 & OY & SY & FR & RB).
    rewrite nth_error_map in NV. destruct (nth_error kvs1 i) as [[k2 old']|] eqn:NE2; [|discriminate]. cbn in NV. injection NV as ->.
    rewrite RO. set (s0 := if vt_eqb (c_dt (hp s2 y)) (vt_of k) then s2 else Reset s2 y (vt_of k)) in *.
    exists y, s0, D, Dy. split; [unfold s0; destruct (vt_eqb (c_dt (hp s2 y)) (vt_of k)); reflexivity|].
    split; [exact (chg_trans _ _ _ _ _ _ _ W C2 C3)|]. split; [auto|]. split; [exact OY|].
    intros h u D1 OU F DI. assert (NDl : ~ Dy l) by (intros K; exact (ND (SY l K))).
    assert (HH : h l = hp s2 l) by (rewrite F; auto). clearbody s0.
    destruct (RB h u D1 OU) as (DK' & OK' & SK').
    + intros z Z NZ. rewrite F; auto.
    + intros z Z. destruct (DI z Z); auto.
    + rewrite ST. rewrite <- HU, <- HH. apply (own_obj h l _ _ DK').
      * rewrite HH. exact HD.
      * rewrite HH, HK, fst_set_val. exact I3.
      * rewrite HH, HK, snd_set_val. exact OK'.
      * left. auto.
      * intros K. destruct (SK' l K) as [[A _]|A]; [auto|]. destruct (DI l A); auto.
      * intros z Z. destruct (SK' z Z) as [[A B]|A]; auto.
  - destruct (getValue G s2 c (vt_of k)) as [r s3] eqn:GV.
    destruct (chg_get s2 c (vt_of k) r s3 D W2 OC2 GD2 GV) as (C3 & CL & NR & FR).
    pose proof (ch_wf _ _ _ _ _ C3) as W3. pose proof (chg_good _ _ _ _ _ C3) as GD3.
    destruct (GD2 l DL) as [L5 LL]. assert (HL3 : hp s3 l = hp s2 l) by (apply FR; auto).
    assert (NRl : r <> l) by (intros ->; auto).
    assert (C4 : chg s3 c (fun z => D z \/ z = r) (set_cell s3 l (push_kv G (hp s3 l) key (Some r))) (fun z => D z \/ z = r)).
    { apply chg_set; auto. intros P PC OK K. apply okc_push; auto. apply ok_ptr_some. apply K. auto. }
    exists r, (set_cell s3 l (push_kv G (hp s3 l) key (Some r))), (fun z => D z \/ z = r), (fun z => z = r).
    split; [reflexivity|]. split; [exact (chg_trans _ _ _ _ _ _ _ W C2 (chg_trans _ _ _ _ _ _ _ W2 C3 C4))|]. split; [auto|].
    split; [apply own_empty; [cbn [set_cell hp]; rewrite upd_other by auto; exact CL|reflexivity]|].
    intros h u D1 OU F DI.
    assert (HH : h l = push_kv G (hp s2 l) key (Some r)).
    { rewrite F; auto. cbn [set_cell hp]. rewrite upd_same, HL3. reflexivity. }
    assert (PK : c_dt (h l) = TObject /\ c_unesc (h l) = u1 /\ c_kvs (h l) = ks1 ++ [(key, Some r)]).
    { rewrite HH, <- HK, <- HU. unfold push_kv. destruct (c_spare (hp s2 l)); cbn [w_obj c_dt c_unesc c_kvs]; auto. }
    destruct PK as (P1 & P2 & P3). rewrite ST. rewrite <- P2.
    assert (NDK : forall z, D1 z -> ~ DK z).
    { intros z Z K. destruct (DI z Z) as [->|Q]; [|apply Q; auto]. destruct (GD2 r (SU r K)). auto. }
    apply (own_obj h l _ _ (fun z => DK z \/ D1 z)); auto.
    + rewrite P3, !map_app, I3. reflexivity.
    + rewrite P3, !map_app. cbn [map snd]. apply owns_app; auto.
      eapply owns_frame; [exact OS2|]. intros z Z. destruct (GD2 z (SU z Z)) as [_ ZL].
      rewrite F; auto; [|intros ->; auto]. cbn [set_cell hp]. rewrite upd_other by (intros ->; auto). auto.
    + intros [K|K]; [auto|]. destruct (DI l K) as [Q|Q]; [congruence|]. apply Q; auto.
    + intros z [Z|Z]; [left; split; [auto|]|auto]. intros ->. destruct (GD2 r (SU r Z)). auto.
Qed.

Definition slot_own (s : st) c (D : nat_set) (l : nat) (w : value) (put : value -> value) (r : res (nat * st)) : Prop :=
  exists x s0 (D0 Dx : nat_set), (~ Dx l /\ c_own (hp s0 l) = c_own (hp s l)) /\
    r = Ok (x, s0) /\ chg s c D s0 D0 /\ (forall z, Dx z -> D0 z) /\ own (hp s0) x w Dx /\
    forall h u (D1 : nat_set), own h x u D1 -> (forall z, D0 z -> ~ Dx z -> h z = hp s0 z) -> (forall z, D1 z -> Dx z \/ ~ D0 z) ->
      own h l (put u) (fun z => (D0 z /\ ~ Dx z) \/ D1 z).
(** The slot of an array; the array keeps its cache. *)
Lemma slot_arr_own s c (D : nat_set) l vs key ai k : wf s -> ok_cache N s c -> good s D -> own (hp s) l (VArray vs) D ->
  slot_own s c D l (cell_at E true (VArray vs) key ai k) (store_at E (VArray vs) key ai)
    (hb_slot E G true s l key ai (vt_of k) c).
Proof.
  intros W OC GD O. inversion O as [? ? ? L| |x vs0 D' DK DT OS DL ND SU]; subst; [destruct L|].
  cbn [hb_slot]. unfold SetIndexCached. rewrite DT. change (vt_eqb TArray TArray) with true.
  cbv zeta. cbn [cell_at].
  assert (LEN : zlen (c_arr (hp s l)) = zlen vs) by (unfold zlen; rewrite (owns_length _ _ _ _ OS); reflexivity).
  rewrite LEN. destruct ((0 <=? ai) && (ai <? zlen vs)) eqn:RG.
  - pose proof RG as RG0. apply andb_prop in RG as [R1 R2]. apply Z.leb_le in R1. apply Z.ltb_lt in R2.
    destruct (nth_error (c_arr (hp s l)) (Z.to_nat ai)) as [p|] eqn:NE; [|apply nth_error_None in NE; unfold zlen in *; lia].
    rewrite (nth_error_nth _ _ _ NE).
    destruct (reuse_ok s c D DK _ _ _ p k W GD SU OS NE) as (y & old & Dy & -> & NV & RO & C3 & OY & SY & FR & RB).
    rewrite NV, RO. set (s0 := if vt_eqb (c_dt (hp s y)) (vt_of k) then s else Reset s y (vt_of k)) in *.
    assert (NDy : ~ Dy l) by (intros K; exact (ND (SY l K))).
    exists y, s0, D, Dy. split; [split; [exact NDy|rewrite FR by exact NDy; reflexivity]|]. split; [unfold s0; destruct (vt_eqb (c_dt (hp s y)) (vt_of k)); reflexivity|].
    split; [exact C3|]. split; [auto|]. split; [exact OY|].
    intros h u D1 OU F DI. assert (NDl : ~ Dy l) by (intros K; exact (ND (SY l K))).
    assert (HH : h l = hp s l) by (rewrite F; auto). clearbody s0.
    destruct (RB h u D1 OU) as (DK' & OK' & SK').
    + intros z Z NZ. rewrite F; auto.
    + intros z Z. destruct (DI z Z); auto.
    + cbn [store_at]. rewrite RG0. apply (own_arr h l _ _ DK').
      * rewrite HH. exact DT.
      * rewrite HH. exact OK'.
      * left. auto.
      * intros K. destruct (SK' l K) as [[A _]|A]; [auto|]. destruct (DI l A); auto.
      * intros z Z. destruct (SK' z Z) as [[A B]|A]; auto.
  - destruct (getValue G s c (vt_of k)) as [r s3] eqn:GV.
    destruct (chg_get s c (vt_of k) r s3 D W OC GD GV) as (C3 & CL & NR & FR).
    pose proof (ch_wf _ _ _ _ _ C3) as W3. pose proof (chg_good _ _ _ _ _ C3) as GD3.
    destruct (GD l DL) as [L5 LL]. assert (HL3 : hp s3 l = hp s l) by (apply FR; auto).
    assert (NRl : r <> l) by (intros ->; auto).
    assert (C4 : chg s3 c (fun z => D z \/ z = r) (set_cell s3 l (w_arr (hp s3 l) (c_arr (hp s3 l) ++ [Some r]))) (fun z => D z \/ z = r)).
    { apply chg_set; auto. intros P PC OK K. apply okc_app; auto. apply ok_ptr_some. apply K. auto. }
    exists r, (set_cell s3 l (w_arr (hp s3 l) (c_arr (hp s3 l) ++ [Some r]))), (fun z => D z \/ z = r), (fun z => z = r).
    split; [split; [congruence|cbn [set_cell hp]; rewrite upd_same, HL3; reflexivity]|].
    split; [reflexivity|]. split; [exact (chg_trans _ _ _ _ _ _ _ W C3 C4)|]. split; [auto|].
    split; [apply own_empty; [cbn [set_cell hp]; rewrite upd_other by auto; exact CL|reflexivity]|].
    intros h u D1 OU F DI.
    assert (HH : h l = w_arr (hp s l) (c_arr (hp s l) ++ [Some r])).
    { rewrite F; auto. cbn [set_cell hp]. rewrite upd_same, HL3. reflexivity. }
    assert (NDK : forall z, D1 z -> ~ DK z).
    { intros z Z K. destruct (DI z Z) as [->|Q]; [|apply Q; auto]. destruct (GD r (SU r K)). auto. }
    cbn [store_at]. rewrite RG. apply (own_arr h l _ _ (fun z => DK z \/ D1 z)); auto.
    + rewrite HH. exact DT.
    + rewrite HH. cbn [w_arr c_arr]. apply owns_app; auto.
      eapply owns_frame; [exact OS|]. intros z Z. destruct (GD z (SU z Z)) as [_ ZL].
      rewrite F; auto; [|intros ->; auto]. cbn [set_cell hp]. rewrite upd_other by (intros ->; auto). auto.
    + intros [K|K]; [auto|]. destruct (DI l K) as [Q|Q]; [congruence|]. apply Q; auto.
    + intros z [Z|Z]; [left; split; [auto|]|auto]. intros ->. destruct (GD r (SU r Z)). auto.
Qed.
Lemma slot_arr s c (D : nat_set) l vs key ai k : wf s -> ok_cache N s c -> good s D -> own (hp s) l (VArray vs) D ->
  slot_ok s c D l (cell_at E true (VArray vs) key ai k) (store_at E (VArray vs) key ai)
    (hb_slot E G true s l key ai (vt_of k) c).
Proof.
  intros W OC GD O. destruct (slot_arr_own s c D l vs key ai k W OC GD O) as (x & s0 & D0 & Dx & _ & H). exists x, s0, D0, Dx. exact H.
Qed.

(** ** Simple elements *)
Definition fin (s : st) c (D : nat_set) x (v : value) (s' : st) : Prop := chg s c D s' D /\ own (hp s') x v D.
Definition okc_to (a b : cell) : Prop := forall P PC s, ok_cell P PC s a -> ok_cell P PC s b.
Lemma fin_set s c D x nc v : wf s -> good s D -> D x -> okc_to (hp s x) nc -> leaf_value v ->
  (forall h, h x = nc -> rep h (Some x) v /\ (v = VNull -> c_bin (h x) = [])) -> fin s c D x v (set_cell s x nc).
Proof.
  intros W GD DX OK L R. split.
  - apply chg_set; auto.
  - destruct (R (hp (set_cell s x nc))) as [R1 R2]; [cbn [set_cell hp]; apply upd_same|]. apply own_leaf; auto.
Qed.
Lemma fin_set2 s c D x a nc v : wf s -> good s D -> D x -> okc_to (hp s x) a -> okc_to a nc -> leaf_value v ->
  (forall h, h x = nc -> rep h (Some x) v /\ (v = VNull -> c_bin (h x) = [])) -> fin s c D x v (set_cell (set_cell s x a) x nc).
Proof.
  intros W GD DX OK1 OK2 L R. assert (C : chg s c D (set_cell s x a) D) by (apply chg_set; auto).
  assert (K : okc_to (hp (set_cell s x a) x) nc) by (cbn [set_cell hp]; rewrite upd_same; exact OK2).
  destruct (fin_set (set_cell s x a) c D x nc v (ch_wf _ _ _ _ _ C) (chg_good _ _ _ _ _ C) DX K L R) as [C2 O].
  split; [exact (chg_trans _ _ _ _ _ _ _ W C C2)|exact O].
Qed.
Lemma okc_to_reset c t : okc_to c (reset_cell c t).
Proof. intros P PC s O. apply okc_reset. exact O. Qed.
Lemma okc_to_kind c t x : okc_to c (w_kind c t x).
Proof. intros P PC s O. apply okc_kind. exact O. Qed.
Lemma okc_to_sv c v : okc_to c (w_sv c v). Proof. intros P PC s O. exact O. Qed.
Lemma okc_to_str c v : okc_to c (w_str c v). Proof. intros P PC s O. exact O. Qed.
Lemma okc_to_bin c v : okc_to c (w_bin c v). Proof. intros P PC s O. exact O. Qed.
Lemma okc_to_dt c v : okc_to c (w_dt c v). Proof. intros P PC s O. exact O. Qed.
Lemma okc_to_trans a b c : okc_to a b -> okc_to b c -> okc_to a c.
Proof. intros A B P PC s O. auto. Qed.

(** [rep] of a leaf from the fields of its cell. *)
Lemma rep_dbl_of h x u : c_dt (h x) = TDouble -> c_sv (h x) = u -> rep h (Some x) (VDouble u).
Proof. intros A <-. constructor; auto. Qed.
Lemma rep_dat_of h x u : c_dt (h x) = TDateTime -> c_sv (h x) = u -> rep h (Some x) (VDateTime u).
Proof. intros A <-. constructor; auto. Qed.
Lemma rep_str_of h x u : c_dt (h x) = TString -> c_str (h x) = u -> rep h (Some x) (VString u).
Proof. intros A <-. constructor; auto. Qed.
Lemma rep_int_of h x e n : c_dt (h x) = TInt -> c_ext (h x) = e -> to_i64 (c_sv (h x)) = n -> rep h (Some x) (VInt e n).
Proof. intros A <- <-. constructor; auto. Qed.
Lemma rep_bin_of h x e b : c_dt (h x) = TBinary -> c_ext (h x) = e -> c_bin (h x) = b -> rep h (Some x) (VBinary e b).
Proof. intros A <- <-. constructor; auto. Qed.

Lemma rep_exb_of h x e b : c_dt (h x) = TExBinary -> c_ext (h x) = e -> c_bin (h x) = b -> rep h (Some x) (VExBinary e b).
Proof. intros A <- <-. constructor; auto. Qed.
Lemma take_err n b e : take n b <> Err e.
Proof. unfold take. destruct (n <=? length b)%nat; discriminate. Qed.
Lemma le32_err b e : le32 b <> Err e.
Proof. unfold le32, take. destruct (4 <=? length b)%nat; discriminate. Qed.
Lemma le64_err b e : le64 b <> Err e.
Proof. unfold le64, take. destruct (8 <=? length b)%nat; discriminate. Qed.
Lemma to_i64_rng u : - 2 ^ 63 <= to_i64 u < 2 ^ 63.
Proof.
  unfold to_i64. cbv zeta. pose proof (Z.mod_pos_bound u (2 ^ 64) ltac:(reflexivity)) as H.
  destruct (Z.ltb_spec (u mod 2 ^ 64) (2 ^ 63)); lia.
Qed.

Definition value_res (s : st) c (D : nat_set) x (r : res (Z * value)) (m : res (st * (gerr + Z))) : Prop :=
  match r with
  | Ok (n, v) => exists s', m = Ok (s', inr n) /\ fin s c D x v s'
  | Err e => exists s' v, m = Ok (s', inl e) /\ fin s c D x v s'
  | Panic => m = Panic
  | OutOfFuel => m = OutOfFuel
  end.
Lemma le_val_lt b : bytes_ok b -> 0 <= le_val b < 256 ^ Z.of_nat (List.length b).
Proof.
  induction 1 as [|x b X B IH]; [cbn; lia|]. cbn [le_val List.length]. rewrite Nat2Z.inj_succ, Z.pow_succ_r by lia.
  unfold byte_ok in X. nia.
Qed.
Lemma le32_small b n : bytes_ok b -> le32 b = Ok n -> 0 <= n < 2 ^ 32.
Proof.
  unfold le32, take. intros B H. destruct (4 <=? length b)%nat eqn:Q; [|discriminate]. cbn [bind] in H. injection H as <-.
  pose proof (le_val_lt (firstn 4 b)) as K. rewrite firstn_length, Nat.min_l in K by (apply Nat.leb_le, Q). apply K.
  apply Forall_forall. intros x X. eapply Forall_forall; [exact B|]. clear - X.
  revert X. generalize 4%nat. intros m. revert b. induction m as [|m IH]; intros [|y b] X; cbn in *; try contradiction.
  destruct X; [auto|right; auto].
Qed.

Lemma obj_id_ok s c (D : nat_set) x k n b : wf s -> good s D -> D x ->
  value_res s c D x (do y <- take n b; Ok (Z.of_nat n, VBinary k y))
    (do y <- take n b; Ok (SetBinary (set_cell s x (w_kind (hp s x) TBinary k)) x y, inr (Z.of_nat n))).
Proof.
  intros W GD DX. destruct (take n b) as [y| | |] eqn:TK; cbn [bind value_res]; auto; [|exfalso; eapply take_err; eauto].
  eexists. split; [reflexivity|]. unfold SetBinary. cbn [set_cell hp]. rewrite !upd_same. cbn [w_kind c_dt].
  apply fin_set2; auto; [apply okc_to_kind|apply okc_to_bin|exact I|].
  intros h H. split; [|discriminate]. apply rep_bin_of; rewrite H; reflexivity.
Qed.
Lemma value_ok s c (D : nat_set) x bt b : wf s -> good s D -> own (hp s) x VNull D -> bytes_ok b ->
  value_res s c D x (bson_value E bt b) (hb_value E s x bt b).
Proof.
  intros W GD O B. inversion O as [? ? ? _ R BN DX| |]; subst. specialize (BN eq_refl).
  assert (DT : c_dt (hp s x) = TNull) by (inversion R; auto).
  destruct (GD x DX) as [X5 XL]. pose proof (proj2 (ReadOnly_ge x) X5) as RO.
  unfold bson_value, hb_value.
  repeat match goal with |- context [if bt =? ?k then _ else _] => destruct (bt =? k) end.
  - destruct (le64 b) as [u| | |] eqn:LE; cbn [bind value_res]; auto; [|exfalso; eapply le64_err; eauto]. eexists. split; [reflexivity|].
    unfold SetDouble. rewrite RO, DT. change (is_dbl TNull) with false. cbv iota zeta. unfold Reset. rewrite RO.
    cbn [set_cell hp]. rewrite upd_same. apply fin_set2; auto; [apply okc_to_reset|apply okc_to_sv|exact I|].
    intros h H. split; [|discriminate]. apply rep_dbl_of; rewrite H; reflexivity.
  - destruct (le32 b) as [n| | |] eqn:LE; cbn [bind value_res]; auto; [|exfalso; eapply le32_err; eauto].
    destruct (n <=? 0); cbn [value_res]; auto.
    destruct (take (Z.to_nat (3 + n)) b) as [t| | |] eqn:TK; cbn [bind value_res]; auto; [|exfalso; eapply take_err; eauto].
    eexists. split; [reflexivity|]. unfold SetString, ensure. rewrite DT. change (vt_eqb TNull TString) with false.
    cbv iota zeta. unfold Reset. rewrite RO.
    cbn [set_cell hp]. rewrite upd_same. apply fin_set2; auto; [apply okc_to_reset|apply okc_to_str|exact I|].
    intros h H. split; [|discriminate]. apply rep_str_of; rewrite H; reflexivity.
  - destruct (le32 b) as [n0| | |] eqn:LE0; cbn [bind value_res]; auto; [|exfalso; eapply le32_err; eauto].
    destruct (skipn 4 b) as [|sub b1]; cbn [value_res]; auto. destruct (sub =? 2).
    + destruct (_ <? 5)%nat; cbn [value_res]; auto.
      destruct (le32 (skipn 5 (sub :: b1))) as [n| | |] eqn:LE; cbn [bind value_res]; auto; [|exfalso; eapply le32_err; eauto].
      destruct (_ <? 9)%nat; cbn [value_res]; auto. destruct (zlen _ <? n); cbn [value_res].
      * eexists _, _. split; [reflexivity|]. apply (fin_set s c D x _ (VExBinary BSON_Binary [])); auto; [apply okc_to_kind|exact I|].
        intros h H. split; [|discriminate]. apply rep_exb_of; rewrite H; auto.
      * destruct (take (Z.to_nat n) _) as [y| | |] eqn:TK; cbn [bind value_res]; auto; [|exfalso; eapply take_err; eauto].
        eexists. split; [reflexivity|]. unfold SetBinary. cbn [set_cell hp]. rewrite !upd_same. cbn [w_kind c_dt].
        assert (K : chg s c D (set_cell s x (w_kind (hp s x) TExBinary BSON_Binary)) D) by (apply chg_set; auto; intros P PC OK _; apply okc_kind; exact OK).
        destruct (fin_set2 (set_cell s x (w_kind (hp s x) TExBinary BSON_Binary)) c D x
                   (w_kind (w_kind (hp s x) TExBinary BSON_Binary) TBinary 0)
                   (w_bin (w_kind (w_kind (hp s x) TExBinary BSON_Binary) TBinary 0) y) (VBinary 0 y)
                   (ch_wf _ _ _ _ _ K) (chg_good _ _ _ _ _ K) DX) as [K2 OB].
        -- cbn [set_cell hp]. rewrite upd_same. apply okc_to_kind.
        -- apply okc_to_bin.
        -- exact I.
        -- intros h H. split; [|discriminate]. apply rep_bin_of; rewrite H; reflexivity.
        -- split; [exact (chg_trans _ _ _ _ _ _ _ W K K2)|exact OB].
    + destruct (take (Z.to_nat (n0 + 1)) _) as [y| | |] eqn:TK; cbn [bind value_res]; auto; [|exfalso; eapply take_err; eauto].
      eexists. split; [reflexivity|]. unfold SetBinary. cbn [set_cell hp]. rewrite !upd_same. cbn [w_kind c_dt c_bin]. rewrite BN.
      cbv zeta. unfold Reset. rewrite RO. cbn [set_cell hp]. rewrite !upd_same.
      assert (K : chg s c D (set_cell s x (w_kind (hp s x) TExBinary BSON_Binary)) D) by (apply chg_set; auto; intros P PC OK _; apply okc_kind; exact OK).
      destruct (fin_set2 (set_cell s x (w_kind (hp s x) TExBinary BSON_Binary)) c D x
                   (reset_cell (w_kind (hp s x) TExBinary BSON_Binary) TBinary)
                   (w_bin (reset_cell (w_kind (hp s x) TExBinary BSON_Binary) TBinary) y) (VBinary 0 y)
                   (ch_wf _ _ _ _ _ K) (chg_good _ _ _ _ _ K) DX) as [K2 OB].
      * cbn [set_cell hp]. rewrite upd_same. apply okc_to_reset.
      * apply okc_to_bin.
      * exact I.
      * intros h H. split; [|discriminate]. apply rep_bin_of; rewrite H; reflexivity.
      * split; [exact (chg_trans _ _ _ _ _ _ _ W K K2)|exact OB].
  - apply (obj_id_ok s c D x BSON_ObjectID 12); auto.
  - destruct b as [|y b]; cbn [value_res]; auto. eexists. split; [reflexivity|].
    apply fin_set; auto; [apply okc_to_dt|destruct (y =? 1); exact I|]. intros h H.
    destruct (y =? 1); (split; [constructor; rewrite H; reflexivity|discriminate]).
  - destruct (le64 b) as [u| | |] eqn:LE; cbn [bind value_res]; auto; [|exfalso; eapply le64_err; eauto]. eexists. split; [reflexivity|].
    unfold SetTime, SetDelphiTime. rewrite DT. change (is_dbl TNull) with false. cbv iota zeta. unfold Reset. rewrite RO.
    cbn [set_cell hp]. rewrite upd_same. apply fin_set2; auto; [apply okc_to_reset|apply okc_to_sv|exact I|].
    intros h H. split; [|discriminate]. apply rep_dat_of; rewrite H; reflexivity.
  - destruct (le32 b) as [u| | |] eqn:LE; cbn [bind value_res]; auto; [|exfalso; eapply le32_err; eauto]. eexists. split; [reflexivity|].
    apply le32_small in LE; auto.
    unfold SetInt, ensure. rewrite DT. change (vt_eqb TNull TInt) with false. cbv iota zeta. unfold Reset. rewrite RO.
    cbn [set_cell hp]. rewrite upd_same. apply fin_set2; auto; [apply okc_to_reset|apply okc_to_sv|exact I|].
    intros h H. split; [|discriminate]. apply rep_int_of; rewrite H; try reflexivity. apply i64_u64. lia.
  - destruct (le64 b) as [u| | |] eqn:LE; cbn [bind value_res]; auto; [|exfalso; eapply le64_err; eauto]. eexists. split; [reflexivity|].
    apply fin_set; auto; [eapply okc_to_trans; [apply okc_to_kind|apply okc_to_sv]|exact I|].
    intros h H. split; [|discriminate]. apply rep_int_of; rewrite H; reflexivity.
  - destruct (le64 b) as [u| | |] eqn:LE; cbn [bind value_res]; auto; [|exfalso; eapply le64_err; eauto]. eexists. split; [reflexivity|].
    unfold SetInt, ensure. rewrite DT. change (vt_eqb TNull TInt) with false. cbv iota zeta. unfold Reset. rewrite RO.
    cbn [set_cell hp]. rewrite upd_same. apply fin_set2; auto; [apply okc_to_reset|apply okc_to_sv|exact I|].
    intros h H. split; [|discriminate]. apply rep_int_of; rewrite H; try reflexivity. apply i64_u64. apply to_i64_rng.
  - apply (obj_id_ok s c D x BSON_Decimal128 16); auto.
  - cbn [value_res]. eexists. split; [reflexivity|]. split; [apply chg_refl; auto|exact O].
Qed.

(** ** Documents *)
Definition of_kind (arr : bool) (v : value) : Prop := if arr then exists l, v = VArray l else exists u m, v = VObject u m.
Lemma cell_null arr doc key ai : cell_at E arr doc key ai KNull = VNull.
Proof.
  unfold cell_at, reuse. destruct doc; auto.
  - destruct (index_by_name E unescaped kvs key) as [[i|] [u m]]; auto. destruct (nth_error m i) as [[? o]|]; auto. destruct o; auto.
  - destruct (_ && _); auto. destruct (nth_error l _) as [o|]; auto. destruct o; auto.
Qed.
Lemma reuse_kind (a : bool) v : of_kind a (reuse (if a then KArr else KObj) v).
Proof. unfold reuse, of_kind. destruct a, v; cbn; eauto. Qed.
Lemma cell_kind arr doc key ai (a : bool) : of_kind a (cell_at E arr doc key ai (if a then KArr else KObj)).
Proof.
  assert (K : of_kind a (empty_of (if a then KArr else KObj))) by (destruct a; cbn; eauto).
  unfold cell_at. destruct doc; auto.
  - destruct (index_by_name E unescaped kvs key) as [[i|] [u m]]; auto. destruct (nth_error m i) as [[? o]|]; auto. apply reuse_kind.
  - destruct (_ && _); auto. destruct (nth_error l _) as [o|]; auto. apply reuse_kind.
Qed.
Lemma store_kind arr doc key ai x : of_kind arr doc -> of_kind arr (store_at E doc key ai x).
Proof.
  destruct arr; cbn [of_kind].
  - intros (l & ->). cbn [store_at]. destruct (_ && _); eauto.
  - intros (u & m & ->). cbn [store_at]. unfold set_key_value. destruct (obj_set E u m key x). eauto.
Qed.
Lemma slot_any arr s c (D : nat_set) l v key ai k : wf s -> ok_cache N s c -> good s D -> own (hp s) l v D -> of_kind arr v ->
  slot_ok s c D l (cell_at E arr v key ai k) (store_at E v key ai) (hb_slot E G arr s l key ai (vt_of k) c).
Proof.
  intros W OC GD O K. destruct arr; cbn [of_kind] in K.
  - destruct K as (vs & ->). apply slot_arr; auto.
  - destruct K as (u & m & ->). apply slot_obj; auto.
Qed.
(** The element is filled after it was attached. *)
Lemma slot_fill s c (D : nat_set) l w put x s0 (D0 Dx : nat_set) s1 (D1 : nat_set) u : wf s ->
  chg s c D s0 D0 -> (forall z, Dx z -> D0 z) -> own (hp s0) x w Dx ->
  (forall h u (D1 : nat_set), own h x u D1 -> (forall z, D0 z -> ~ Dx z -> h z = hp s0 z) -> (forall z, D1 z -> Dx z \/ ~ D0 z) ->
      own h l (put u) (fun z => (D0 z /\ ~ Dx z) \/ D1 z)) ->
  chg s0 c Dx s1 D1 -> own (hp s1) x u D1 ->
  exists D', chg s c D s1 D' /\ own (hp s1) l (put u) D'.
Proof.
  intros W C0 SX OX RB C1 OU. pose proof (chg_good _ _ _ _ _ C0) as GD0.
  exists (fun z => (D0 z /\ ~ Dx z) \/ D1 z). split.
  - apply (chg_trans _ _ _ _ _ _ _ W C0). apply chg_part; auto.
  - apply RB; auto.
    + intros z Z NZ. apply (ch_frame _ _ _ _ _ C1); auto. apply GD0; auto.
    + intros z Z. destruct (ch_new _ _ _ _ _ C1 z Z) as (_ & _ & [Q|Q]); [auto|]. right. intros K. apply Q, GD0, K.
Qed.

Definition doc_res (arr : bool) (s : st) c (D : nat_set) l (r : res (Z * value)) (m : res (st * (gerr + Z))) : Prop :=
  match r with
  | Ok (n, v) => exists s' D', m = Ok (s', inr n) /\ chg s c D s' D' /\ own (hp s') l v D' /\ of_kind arr v
  | Err e => exists s' D' v, m = Ok (s', inl e) /\ chg s c D s' D' /\ own (hp s') l v D' /\ of_kind arr v
  | Panic => m = Panic
  | OutOfFuel => m = OutOfFuel
  end.
Definition loop_res (arr : bool) (s : st) c (D : nat_set) l (r : res value) (m : res (st * option gerr)) : Prop :=
  match r with
  | Ok v => exists s' D', m = Ok (s', None) /\ chg s c D s' D' /\ own (hp s') l v D' /\ of_kind arr v
  | Err e => exists s' D' v, m = Ok (s', Some e) /\ chg s c D s' D' /\ own (hp s') l v D' /\ of_kind arr v
  | Panic => m = Panic
  | OutOfFuel => m = OutOfFuel
  end.
(** What one element gives, whatever its kind. *)
Definition elem_res (s : st) c (D : nat_set) l (put : value -> value) (r : res (Z * value)) (m : res (st * (gerr + Z))) : Prop :=
  match r with
  | Ok (n, x) => exists s' D', m = Ok (s', inr n) /\ chg s c D s' D' /\ own (hp s') l (put x) D'
  | Err e => exists s' D' x, m = Ok (s', inl e) /\ chg s c D s' D' /\ own (hp s') l (put x) D'
  | Panic => m = Panic
  | OutOfFuel => m = OutOfFuel
  end.
Lemma elem_doc a s c (D : nat_set) l w put sl r (f : st -> nat -> res (st * (gerr + Z))) :
  wf s -> ok_cache N s c -> good s D -> slot_ok s c D l w put sl ->
  (forall x s0 Dx, wf s0 -> ok_cache N s0 c -> good s0 Dx -> own (hp s0) x w Dx -> doc_res a s0 c Dx x r (f s0 x)) ->
  elem_res s c D l put r (do (x, s0) <- sl; f s0 x).
Proof.
  intros W OC GD (x & s0 & D0 & Dx & -> & C0 & SX & OX & RB) H. cbn [bind].
  pose proof (chg_good _ _ _ _ _ C0) as GD0. pose proof (chg_cache _ _ _ _ _ C0 W GD OC) as OC0.
  specialize (H x s0 Dx (ch_wf _ _ _ _ _ C0) OC0 (fun z Z => GD0 z (SX z Z)) OX).
  destruct r as [[n u]|e| |]; cbn [doc_res elem_res] in *; auto.
  - destruct H as (s1 & D1 & -> & C1 & OU & _).
    destruct (slot_fill s c D l w put x s0 D0 Dx s1 D1 u W C0 SX OX RB C1 OU) as (D' & A & B). eauto.
  - destruct H as (s1 & D1 & u & -> & C1 & OU & _).
    destruct (slot_fill s c D l w put x s0 D0 Dx s1 D1 u W C0 SX OX RB C1 OU) as (D' & A & B). exists s1, D', u. eauto.
Qed.
Lemma elem_value s c (D : nat_set) l put sl bt b :
  wf s -> ok_cache N s c -> good s D -> bytes_ok b -> slot_ok s c D l VNull put sl ->
  elem_res s c D l put (bson_value E bt b) (do (x, s0) <- sl; hb_value E s0 x bt b).
Proof.
  intros W OC GD B (x & s0 & D0 & Dx & -> & C0 & SX & OX & RB). cbn [bind].
  pose proof (chg_good _ _ _ _ _ C0) as GD0.
  pose proof (value_ok s0 c Dx x bt b (ch_wf _ _ _ _ _ C0) (fun z Z => GD0 z (SX z Z)) OX B) as H.
  destruct (bson_value E bt b) as [[n u]|e| |]; cbn [value_res elem_res] in *; auto.
  - destruct H as (s1 & -> & C1 & OU).
    destruct (slot_fill s c D l VNull put x s0 D0 Dx s1 Dx u W C0 SX OX RB C1 OU) as (D' & A & K). eauto.
  - destruct H as (s1 & u & -> & C1 & OU).
    destruct (slot_fill s c D l VNull put x s0 D0 Dx s1 Dx u W C0 SX OX RB C1 OU) as (D' & A & K). exists s1, D', u. eauto.
Qed.

Theorem hb_ok fuel :
  (forall arr s c (D : nat_set) l v b, wf s -> ok_cache N s c -> good s D -> own (hp s) l v D -> of_kind arr v -> bytes_ok b ->
     doc_res arr s c D l (bs_doc E fuel arr b v) (hb_doc E G fuel arr s l c b)) /\
  (forall arr s c (D : nat_set) l v b n i, wf s -> ok_cache N s c -> good s D -> own (hp s) l v D -> of_kind arr v -> bytes_ok b ->
     loop_res arr s c D l (bs_loop E fuel arr b n i v) (hb_loop E G fuel arr s l c b n i)).
Proof.
  induction fuel as [|f [ID IL]]; split; [intros; reflexivity|intros; reflexivity| |].
  - intros arr s c D l v b W OC GD O K B. cbn [bs_doc hb_doc]. fold (hb_doc E G) (hb_loop E G).
    destruct (negb arr && (zlen b <=? 4)).
    { exists s, D, v. split; [reflexivity|]. split; [apply chg_refl; auto|auto]. }
    destruct (le32 b) as [n| | |] eqn:LE; cbn [bind doc_res]; auto; [|exfalso; eapply le32_err; eauto].
    destruct (zlen b <? n).
    { exists s, D, v. split; [reflexivity|]. split; [apply chg_refl; auto|auto]. }
    specialize (IL arr s c D l v b n 4 W OC GD O K B).
    destruct (bs_loop E f arr b n 4 v) as [v'|e| |]; cbn [bind loop_res doc_res] in *.
    + destruct IL as (s' & D' & -> & R). cbn [bind]. eauto.
    + destruct IL as (s' & D' & v' & -> & R). cbn [bind]. exists s', D', v'. eauto.
    + rewrite IL. reflexivity.
    + rewrite IL. reflexivity.
  - intros arr s c D l v b n i W OC GD O K B. cbn [bs_loop hb_loop]. fold (hb_doc E G) (hb_loop E G).
    destruct (n <=? i). { exists s, D. split; [reflexivity|]. split; [apply chg_refl; auto|auto]. }
    pose proof (skipn_ok (Z.to_nat i) b B) as B1. destruct (skipn (Z.to_nat i) b) as [|bt b1]; [reflexivity|].
    apply Forall_inv_tail in B1. destruct (index_byte b1 0) as [ke|].
    2: { exists s, D, v. split; [reflexivity|]. split; [apply chg_refl; auto|auto]. }
    cbv zeta. pose proof (skipn_ok (S ke) b1 B1) as B2. set (b2 := skipn (S ke) b1) in *. clearbody b2. set (key := firstn ke b1).
    set (ai := if arr then x_str2int E key (-1) else 0). destruct (arr && (ai =? -1)).
    { exists s, D, v. split; [reflexivity|]. split; [apply chg_refl; auto|auto]. }
    assert (EL : elem_res s c D l (store_at E v key ai)
      (if bt =? BSON_Array then bs_doc E f true b2 (cell_at E arr v key ai KArr)
       else if bt =? BSON_EmbeddedDocument then bs_doc E f false b2 (cell_at E arr v key ai KObj)
       else bson_value E bt b2)
      (if bt =? BSON_Array then do (x, s0) <- hb_slot E G arr s l key ai TArray c; hb_doc E G f true s0 x c b2
       else if bt =? BSON_EmbeddedDocument then do (x, s0) <- hb_slot E G arr s l key ai TObject c; hb_doc E G f false s0 x c b2
       else do (x, s0) <- hb_slot E G arr s l key ai TNull c; hb_value E s0 x bt b2)).
    { destruct (bt =? BSON_Array); [|destruct (bt =? BSON_EmbeddedDocument)].
      - apply (elem_doc true s c D l _ _ _ _ (fun s0 x => hb_doc E G f true s0 x c b2) W OC GD (slot_any arr s c D l v key ai KArr W OC GD O K)).
        intros x s0 Dx W0 OC0 GD0 OX. apply ID; auto. exact (cell_kind arr v key ai true).
      - apply (elem_doc false s c D l _ _ _ _ (fun s0 x => hb_doc E G f false s0 x c b2) W OC GD (slot_any arr s c D l v key ai KObj W OC GD O K)).
        intros x s0 Dx W0 OC0 GD0 OX. apply ID; auto. exact (cell_kind arr v key ai false).
      - apply elem_value; auto. rewrite <- (cell_null arr v key ai). exact (slot_any arr s c D l v key ai KNull W OC GD O K). }
    set (r := if bt =? BSON_Array then bs_doc E f true b2 (cell_at E arr v key ai KArr) else _) in *.
    set (m := if bt =? BSON_Array then do (x, s0) <- hb_slot E G arr s l key ai TArray c; hb_doc E G f true s0 x c b2 else _) in *.
    clearbody r m. destruct r as [[m0 u]|e| |]; cbn [elem_res] in EL.
    + destruct EL as (s1 & D1 & -> & C1 & O1). cbn [bind].
      destruct (_ && _).
      * exists s1, D1. split; [reflexivity|]. split; [exact C1|]. split; [exact O1|apply store_kind; exact K].
      * specialize (IL arr s1 c D1 l (store_at E v key ai u) b n (i + 1 + Z.of_nat ke + 1 + m0) (ch_wf _ _ _ _ _ C1) (chg_cache _ _ _ _ _ C1 W GD OC)
                      (chg_good _ _ _ _ _ C1) O1 (store_kind arr v key ai u K) B).
        destruct (bs_loop E f arr b n _ _) as [v'|e| |]; cbn [loop_res] in *; auto.
        -- destruct IL as (s' & D' & -> & C2 & R). exists s', D'. split; [reflexivity|]. split; [exact (chg_trans _ _ _ _ _ _ _ W C1 C2)|exact R].
        -- destruct IL as (s' & D' & v' & -> & C2 & R). exists s', D', v'. split; [reflexivity|]. split; [exact (chg_trans _ _ _ _ _ _ _ W C1 C2)|exact R].
    + destruct EL as (s1 & D1 & u & -> & C1 & O1). cbn [bind loop_res].
      exists s1, D1, (store_at E v key ai u). split; [reflexivity|]. split; [exact C1|]. split; [exact O1|apply store_kind; exact K].
    + rewrite EL. reflexivity.
    + rewrite EL. reflexivity.
Qed.
End Steps.

(** ** No cell is met on two paths *)
Definition unshared (h : nat -> cell) (x : nat) : Prop :=
  forall p q y, walk h x p = Some y -> walk h x q = Some y -> p = q.
Lemma kids_leaf h x v : leaf_value v -> rep h (Some x) v -> kid_ptrs (h x) = [].
Proof.
  intros L R. unfold kid_ptrs. inversion R; subst; cbn [leaf_value] in L; try (destruct L; fail);
    match goal with H : c_dt (h x) = _ |- _ => rewrite H end; reflexivity.
Qed.
Lemma own_walk h : (forall x v D, own h x v D -> unshared h x) /\
  (forall ps vs D, owns h ps vs D -> forall i j k l p q y, nth_error ps i = Some (Some k) -> nth_error ps j = Some (Some l) ->
     walk h k p = Some y -> walk h l q = Some y -> i = j /\ p = q).
Proof.
  assert (CON : forall x ps vs D, kid_ptrs (h x) = ps -> owns h ps vs D -> ~ D x ->
    (forall i j k l p q y, nth_error ps i = Some (Some k) -> nth_error ps j = Some (Some l) ->
     walk h k p = Some y -> walk h l q = Some y -> i = j /\ p = q) -> unshared h x).
  { intros x ps vs D KQ OS ND IH p q y H1 H2.
    assert (NX : forall i k r, nth_error ps i = Some (Some k) -> walk h k r = Some x -> False).
    { intros i k r Q R. apply ND. apply (proj2 (proj2 (own_rep_all h) _ _ _ OS) k x); [eapply nth_error_In; exact Q|eapply walk_reach; exact R]. }
    destruct p as [|i p], q as [|j q]; cbn [walk] in *; rewrite ?KQ in *.
    - reflexivity.
    - injection H1 as <-. destruct (nth_error ps j) as [[l|]|] eqn:Q; try discriminate. exfalso. eauto.
    - injection H2 as <-. destruct (nth_error ps i) as [[l|]|] eqn:Q; try discriminate. exfalso. eauto.
    - destruct (nth_error ps i) as [[k|]|] eqn:Q1; try discriminate. destruct (nth_error ps j) as [[l|]|] eqn:Q2; try discriminate.
      destruct (IH _ _ _ _ _ _ _ Q1 Q2 H1 H2) as [-> ->]. reflexivity. }
  apply own_mut.
  - intros x v D L R B DX p q y H1 H2. pose proof (kids_leaf _ _ _ L R) as K.
    destruct p, q; cbn [walk] in *; rewrite ?K in *; auto; destruct n; discriminate.
  - intros x kvs D DK DT KS OS IH DX ND SU. eapply (CON x _ _ DK); [unfold kid_ptrs; rewrite DT; reflexivity|exact OS|exact ND|exact IH].
  - intros x vs D DK DT OS IH DX ND SU. eapply (CON x _ _ DK); [unfold kid_ptrs; rewrite DT; reflexivity|exact OS|exact ND|exact IH].
  - intros D i j k l p q y H. destruct i; discriminate.
  - intros y v ps vs D1 D2 D O1 I1 O2 I2 DJ S1 S2 i j k l p q z H1 H2 W1 W2.
    assert (A1 : forall r u, walk h y r = Some u -> D1 u) by (intros r u R; apply (proj2 (proj1 (own_rep_all h) _ _ _ O1)); eapply walk_reach; exact R).
    assert (A2 : forall m e r u, nth_error ps m = Some (Some e) -> walk h e r = Some u -> D2 u).
    { intros m e r u R1 R2. apply (proj2 (proj2 (own_rep_all h) _ _ _ O2) e); [eapply nth_error_In; exact R1|eapply walk_reach; exact R2]. }
    destruct i as [|i], j as [|j]; cbn [nth_error] in *.
    + injection H1 as <-. injection H2 as <-. split; [reflexivity|]. exact (I1 p q z W1 W2).
    + injection H1 as <-. exfalso. exact (DJ z (A1 _ _ W1) (A2 _ _ _ _ H2 W2)).
    + injection H2 as <-. exfalso. exact (DJ z (A1 _ _ W2) (A2 _ _ _ _ H1 W1)).
    + destruct (I2 _ _ _ _ _ _ _ H1 H2 W1 W2) as [-> ->]. auto.
Qed.

(** ** [NewValueFromBson] and [LoadFromBson] *)
Section Calls.
Variable E : env.
Variable G : nat -> nat.
Notation N := none_set.
Lemma new_bson s uc b : wf s -> bytes_ok b ->
  let s0 := snd (cache_of s uc) in let c := fst (cache_of s uc) in
  match NewValueFromBson E b with
  | Ok v => exists s' r, h_NewValueFromBson E G s uc b = Ok (s', inr (Some r)) /\ cloned s0 c v r s' /\ exists D, own (hp s') r v D
  | Err e => exists s', h_NewValueFromBson E G s uc b = Ok (s', inl e) /\ wf s' /\ forall x, live s0 x -> hp s' x = hp s0 x /\ live s' x
  | Panic => h_NewValueFromBson E G s uc b = Panic
  | OutOfFuel => h_NewValueFromBson E G s uc b = OutOfFuel
  end.
Proof.
  intros W B. destruct (cache_of_same G s uc W) as (_ & _ & _ & W0 & OC0).
  assert (EQ : h_NewValueFromBson E G s uc b =
    let (root, s1) := getValue G (snd (cache_of s uc)) (fst (cache_of s uc)) TObject in
    do (s2, r) <- hb_doc E G (bs_fuel b) false s1 root (fst (cache_of s uc)) b;
    Ok (s2, match r with inl e => inl e | inr _ => inr (Some root) end)).
  { unfold h_NewValueFromBson, cache_of. destruct uc as [ch|]; [|reflexivity]. destruct (getCache s ch); reflexivity. }
  rewrite EQ. clear EQ. cbv zeta. set (s0 := snd (cache_of s uc)) in *. set (c := fst (cache_of s uc)) in *. clearbody s0 c.
  destruct (getValue G s0 c TObject) as [r s1] eqn:GV.
  destruct (chg_get G s0 c TObject r s1 (fun _ => False) W0 OC0 ltac:(intros z []) GV) as (C1 & CL & NR & FR).
  pose proof (chg_cache _ _ _ _ _ C1 W0 ltac:(intros z []) OC0) as OC1.
  assert (O1 : own (hp s1) r (VObject false []) (fun z => False \/ z = r)) by (apply (own_empty (hp s1) r KObj); auto).
  pose proof (proj1 (hb_ok E G (bs_fuel b)) false s1 c _ r _ b (ch_wf _ _ _ _ _ C1) OC1 (chg_good _ _ _ _ _ C1) O1
                (ex_intro _ false (ex_intro _ [] eq_refl)) B) as H.
  unfold NewValueFromBson. destruct (bs_doc E (bs_fuel b) false b (VObject false [])) as [[n v]|e| |]; cbn [bind doc_res] in *.
  - destruct H as (s' & D' & -> & C2 & O2 & _). cbn [bind]. exists s', r. split; [reflexivity|]. split; [|exists D'; exact O2].
    pose proof (chg_trans _ _ _ _ _ _ _ W0 C1 C2) as C. destruct (proj1 (own_rep_all (hp s')) _ _ _ O2) as [R RE]. constructor.
    + apply C.
    + intros x L. apply (ch_frame _ _ _ _ _ C); auto.
    + exact R.
    + intros x X. right. destruct (ch_new _ _ _ _ _ C x (RE x X)) as (A & A2 & [[]|A3]). auto.
    + intros P PC s2 CF F. destruct (ch_conf _ _ _ _ _ C P PC s2 CF F ltac:(intros z [])) as [A A2]. split; [exact A|].
      intros x X. right. auto.
    + intros P PC I O. destruct (ch_tr _ _ _ _ _ C P PC I O ltac:(intros z [])) as [A A2]. split; [exact A|]. auto.
    + intros p q y _. exact (proj1 (own_walk (hp s')) _ _ _ O2 p q y).
  - destruct H as (s' & D' & v & -> & C2 & _). cbn [bind]. exists s'. split; [reflexivity|].
    pose proof (chg_trans _ _ _ _ _ _ _ W0 C1 C2) as C. split; [apply C|]. intros x L. split; [|apply C; exact L].
    apply (ch_frame _ _ _ _ _ C); auto.
  - rewrite H. reflexivity.
  - rewrite H. reflexivity.
Qed.

(** Nothing but [l] changes, and what is under [l] afterwards was not in use. *)
Definition stays (s : st) (l : nat) (s' : st) : Prop :=
  (forall x, live s x -> x <> l -> hp s' x = hp s x) /\ (forall x, live s x -> live s' x) /\
  (forall x, reach (hp s') l x -> x = l \/ ~ live s x).
Lemma chg_stays s c l s' D' v : chg s c (fun z => z = l) s' D' -> own (hp s') l v D' -> stays s l s'.
Proof.
  intros C O. split; [|split; [apply C|]].
  - intros x X N1. apply (ch_frame _ _ _ _ _ C); auto.
  - intros x X. destruct (ch_new _ _ _ _ _ C x (proj2 (proj1 (own_rep_all (hp s')) _ _ _ O) x X)) as (_ & _ & [K|K]); auto.
Qed.
Definition load_res (s : st) (l : nat) (r : res value) (m : res (st * option gerr)) : Prop :=
  match r with
  | Ok v => exists s', m = Ok (s', None) /\ wf s' /\ rep (hp s') (Some l) v /\ stays s l s' /\ exists D, own (hp s') l v D
  | Err e => exists s' v, m = Ok (s', Some e) /\ wf s' /\ rep (hp s') (Some l) v /\ stays s l s'
  | Panic => m = Panic
  | OutOfFuel => m = OutOfFuel
  end.
Lemma load_at s1 l b : wf s1 -> live s1 l -> (5 <= l)%nat -> bytes_ok b -> b <> [] ->
  own (hp s1) l (VObject false []) (fun z => z = l) ->
  load_res s1 l (NewValueFromBson E b)
    (do (s2, r) <- hb_doc E G (bs_fuel b) false s1 l (c_own (hp s1 l)) b; Ok (s2, match r with inl e => Some e | inr _ => None end)).
Proof.
  intros W L L5 B NB O.
  assert (OC : ok_cache N s1 (c_own (hp s1 l))) by (apply (own_ok N N); auto; split; [apply L|intros []]).
  assert (GD : good s1 (fun z => z = l)) by (intros z ->; auto).
  pose proof (proj1 (hb_ok E G (bs_fuel b)) false s1 _ _ l _ b W OC GD O (ex_intro _ false (ex_intro _ [] eq_refl)) B) as H.
  unfold NewValueFromBson. destruct (bs_doc E (bs_fuel b) false b (VObject false [])) as [[n v]|e| |]; cbn [bind doc_res load_res] in *.
  - destruct H as (s' & D' & -> & C2 & O2 & _). cbn [bind]. exists s'. split; [reflexivity|]. split; [apply C2|].
    split; [apply (proj1 (own_rep_all (hp s')) _ _ _ O2)|]. split; [exact (chg_stays _ _ _ _ _ _ C2 O2)|eauto].
  - destruct H as (s' & D' & v & -> & C2 & O2 & _). cbn [bind]. exists s', v. split; [reflexivity|]. split; [apply C2|].
    split; [apply (proj1 (own_rep_all (hp s')) _ _ _ O2)|exact (chg_stays _ _ _ _ _ _ C2 O2)].
  - rewrite H. reflexivity.
  - rewrite H. reflexivity.
Qed.
Lemma hb_loop_S f arr s l c b n i : hb_loop E G (S f) arr s l c b n i =
  if n <=? i then Ok (s, None)
  else
    match skipn (Z.to_nat i) b with
    | [] => Panic
    | bt :: b1 =>
      match index_byte b1 0 with
      | None => Ok (s, Some ErrInvalidBSON)
      | Some ke =>
        let key := firstn ke b1 in
        let b2 := skipn (S ke) b1 in
        let ai := if arr then x_str2int E key (-1) else 0 in
        if arr && (ai =? -1) then Ok (s, Some ErrInvalidArrayBsonIndex)
        else
          do (s1, r) <-
            (if bt =? BSON_Array then do (x, s0) <- hb_slot E G arr s l key ai TArray c; hb_doc E G f true s0 x c b2
             else if bt =? BSON_EmbeddedDocument then do (x, s0) <- hb_slot E G arr s l key ai TObject c; hb_doc E G f false s0 x c b2
             else do (x, s0) <- hb_slot E G arr s l key ai TNull c; hb_value E s0 x bt b2);
          match r with
          | inl e => Ok (s1, Some e)
          | inr m =>
            let idx' := i + 1 + Z.of_nat ke + 1 + m in
            if (idx' =? n - 1) && match nth_error b (Z.to_nat idx') with Some 0 => true | _ => false end
            then Ok (s1, None) else hb_loop E G f arr s1 l c b n idx'
          end
      end
    end.
Proof. reflexivity. Qed.
Lemma slot_reset s l key ai t c : c_dt (hp s l) <> TObject -> (c_dt (hp s l) = TArray -> x_str2int E key (-1) = -1) -> (5 <= l)%nat ->
  hb_slot E G false s l key ai t c = hb_slot E G false (Reset s l TObject) l key ai t c.
Proof.
  intros N1 N2 L5. unfold hb_slot, SetKeyCached. cbv zeta. pose proof (proj2 (ReadOnly_ge l) L5) as RO.
  assert (D : c_dt (hp (Reset s l TObject) l) = TObject) by (unfold Reset; rewrite RO; cbn [set_cell hp]; rewrite upd_same; reflexivity).
  rewrite D. change (vt_eqb TObject TArray) with false. change (vt_eqb TObject TObject) with true. cbn [andb].
  assert (Q1 : vt_eqb (c_dt (hp s l)) TArray && negb (x_str2int E key (-1) =? -1) = false).
  { destruct (vt_eqb (c_dt (hp s l)) TArray) eqn:Q1; [|reflexivity]. apply HeapBase.vt_eqb_eq in Q1. rewrite (N2 Q1). reflexivity. }
  rewrite Q1.
  destruct (vt_eqb (c_dt (hp s l)) TObject) eqn:Q2; [apply HeapBase.vt_eqb_eq in Q2; congruence|]. reflexivity.
Qed.
(** On a receiver that is no object, and if it is an array the first name is no number, the first element resets it; before that nothing is changed. *)
Lemma loop_reset f s l c b n : c_dt (hp s l) <> TObject -> (c_dt (hp s l) = TArray -> first_word E b) -> (5 <= l)%nat ->
  hb_loop E G (S f) false s l c b n 4 = hb_loop E G (S f) false (Reset s l TObject) l c b n 4 \/
  exists e, hb_loop E G (S f) false s l c b n 4 = Ok (s, e) /\
    forall v, bs_loop E (S f) false b n 4 v = match e with None => Ok v | Some e => Err e end.
Proof.
  intros N1 N2 L5. rewrite !hb_loop_S. cbn [bs_loop].
  destruct (n <=? 4); [right; exists None; auto|]. change (Z.to_nat 4) with 4%nat.
  destruct (skipn 4 b) as [|bt b1] eqn:SK; [left; reflexivity|].
  assert (B1 : b1 = skipn 5 b) by (do 4 (destruct b as [|? b]; [discriminate SK|]); cbn [skipn] in SK |- *; subst b; reflexivity).
  destruct (index_byte b1 0) as [ke|] eqn:IB; [|right; exists (Some ErrInvalidBSON); auto]. left. cbv zeta. cbn [andb].
  assert (N3 : c_dt (hp s l) = TArray -> x_str2int E (firstn ke b1) (-1) = -1).
  { intros X. rewrite B1. apply (N2 X). rewrite <- B1. exact IB. }
  rewrite <- !(slot_reset s) by auto. reflexivity.
Qed.
Lemma doc_reset f s l c b : c_dt (hp s l) <> TObject -> (c_dt (hp s l) = TArray -> first_word E b) -> (5 <= l)%nat ->
  hb_doc E G (S (S f)) false s l c b = hb_doc E G (S (S f)) false (Reset s l TObject) l c b \/
  (exists n, hb_doc E G (S (S f)) false s l c b = Ok (s, inr n) /\ forall v, bs_doc E (S (S f)) false b v = Ok (n, v)) \/
  exists e, hb_doc E G (S (S f)) false s l c b = Ok (s, inl e) /\ forall v, bs_doc E (S (S f)) false b v = Err e.
Proof.
  intros N1 N2 L5. remember (S f) as k eqn:K.
  change (hb_doc E G (S k) false s l c b) with
    (if negb false && (zlen b <=? 4) then Ok (s, inl ErrBadBSONDocLen) else
      do n <- le32 b; if zlen b <? n then Ok (s, inl ErrBadBSONDocLen)
      else do (s1, e) <- hb_loop E G k false s l c b n 4; Ok (s1, match e with Some e => inl e | None => inr n end) : res (st * (gerr + Z))).
  change (hb_doc E G (S k) false (Reset s l TObject) l c b) with
    (if negb false && (zlen b <=? 4) then Ok (Reset s l TObject, inl ErrBadBSONDocLen) else
      do n <- le32 b; if zlen b <? n then Ok (Reset s l TObject, inl ErrBadBSONDocLen)
      else do (s1, e) <- hb_loop E G k false (Reset s l TObject) l c b n 4; Ok (s1, match e with Some e => inl e | None => inr n end) : res (st * (gerr + Z))).
  assert (BS : forall v, bs_doc E (S k) false b v = if negb false && (zlen b <=? 4) then Err ErrBadBSONDocLen else
      do n <- le32 b; if zlen b <? n then Err ErrBadBSONDocLen else do w <- bs_loop E k false b n 4 v; Ok (n, w)) by reflexivity.
  setoid_rewrite BS. clear BS.
  destruct (negb false && (zlen b <=? 4)); [right; right; exists ErrBadBSONDocLen; auto|].
  destruct (le32 b) as [n| | |] eqn:LE; cbn [bind]; [|exfalso; eapply le32_err; eauto|left; reflexivity|left; reflexivity].
  destruct (zlen b <? n); [right; right; exists ErrBadBSONDocLen; auto|].
  subst k. destruct (loop_reset f s l c b n N1 N2 L5) as [Q|(e & Q & R)]; rewrite Q; [left; reflexivity|].
  right. destruct e as [e|]; [right; exists e|left; exists n]; (split; [reflexivity|]); intros v; rewrite R; reflexivity.
Qed.

Lemma clear_live_wf s s1 l : wf s -> Clear s l = Ok s1 -> live s1 l -> wf s1.
Proof.
  intros W CL L. assert (OL : ok_loc N s l). { split; [|intros []]. rewrite <- (Clear_nx s l s1 CL). apply L. }
  apply (tr_Clear N N s l s1 W OL CL).
Qed.
Theorem load_obj s s1 l b : wf s -> Clear s l = Ok s1 -> live s1 l -> (5 <= l)%nat -> bytes_ok b -> b <> [] ->
  c_dt (hp s l) = TObject -> load_res s1 l (NewValueFromBson E b) (h_LoadFromBson E G s l b).
Proof.
  intros W CL L L5 B NB D. pose proof (clear_live_wf s s1 l W CL L) as W1. pose proof (Clear_cell s l s1 CL) as HC.
  destruct (clear_same (hp s l)) as (C1 & C2 & C3 & C4 & C5 & C6 & C7). rewrite <- HC in *.
  unfold h_LoadFromBson. rewrite CL. cbn [bind]. destruct b as [|b0 b]; [congruence|]. apply load_at; auto.
  pose proof (own_obj (hp s1) l [] (fun z => z = l) (fun _ => False)) as X. rewrite C5, C4 in X. apply X; auto.
  - congruence.
  - constructor.
  - intros z [].
Qed.
Theorem load_other s s1 l b : wf s -> Clear s l = Ok s1 -> live s1 l -> (5 <= l)%nat -> bytes_ok b -> b <> [] ->
  c_dt (hp s l) <> TObject -> (c_dt (hp s l) = TArray -> first_word E b) ->
  load_res s1 l (NewValueFromBson E b) (h_LoadFromBson E G s l b) \/
  NewValueFromBson E b = Ok (VObject false []) /\ h_LoadFromBson E G s l b = Ok (s1, None) \/
  exists e, NewValueFromBson E b = Err e /\ h_LoadFromBson E G s l b = Ok (s1, Some e).
Proof.
  intros W CL L L5 B NB D1 D2. pose proof (clear_live_wf s s1 l W CL L) as W1. pose proof (Clear_cell s l s1 CL) as HC.
  destruct (clear_same (hp s l)) as (C1 & _). rewrite <- HC in C1.
  unfold h_LoadFromBson. rewrite CL. cbn [bind]. destruct b as [|b0 b]; [congruence|]. set (b' := b0 :: b) in *.
  assert (FU : exists f, bs_fuel b' = S (S f)) by (unfold bs_fuel; eexists; rewrite Nat.add_comm; cbn [Nat.add]; reflexivity).
  destruct FU as (f & FU). rewrite <- C1 in D1, D2.
  destruct (doc_reset f s1 l (c_own (hp s1 l)) b' D1 D2 L5) as [Q|[(n & Q & R)|(e & Q & R)]]; rewrite <- FU in *; rewrite Q.
  - left. pose proof (proj2 (ReadOnly_ge l) L5) as RO. unfold Reset in *. rewrite RO in *.
    assert (C : chg s1 None (fun z => z = l) (set_cell s1 l (reset_cell (hp s1 l) TObject)) (fun z => z = l)).
    { apply chg_reset; auto. intros z ->. auto. }
    pose proof (load_at (set_cell s1 l (reset_cell (hp s1 l) TObject)) l b' (ch_wf _ _ _ _ _ C) (ch_lives _ _ _ _ _ C l L) L5 B NB) as H.
    assert (HL : hp (set_cell s1 l (reset_cell (hp s1 l) TObject)) l = reset_cell (hp s1 l) TObject) by (cbn [set_cell hp]; apply upd_same).
    rewrite HL, own_reset in H.
    assert (O0 : own (hp (set_cell s1 l (reset_cell (hp s1 l) TObject))) l (VObject false []) (fun z => z = l)).
    { apply (own_empty _ l KObj); auto. rewrite HL. apply clean_reset. }
    specialize (H O0).
    assert (SS : forall s', stays (set_cell s1 l (reset_cell (hp s1 l) TObject)) l s' -> stays s1 l s').
    { intros s' (A1 & A2 & A3). split; [|split; [exact A2|exact A3]]. intros x X NX. rewrite A1 by auto. cbn [set_cell hp]. apply upd_other. auto. }
    unfold load_res in *. destruct (NewValueFromBson E b') as [v|e| |]; auto.
    + destruct H as (s' & A & A2 & A3 & A4 & A5). exists s'. auto 6.
    + destruct H as (s' & v & A & A2 & A3 & A4). exists s', v. auto 6.
  - right. left. unfold NewValueFromBson. rewrite R. auto.
  - right. right. exists e. unfold NewValueFromBson. rewrite R. auto.
Qed.
End Calls.
