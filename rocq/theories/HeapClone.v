(** [Clone]: content, freshness and confinement of the copy. *)
From Verif Require Import Base Values Tactics HeapModel HeapSpec HeapBase HeapConf HeapGet HeapCalls HeapObj HeapForce HeapTree.

(** ** Specification *)
(** What [Clone] copies: everything but binaries and nil entries; the extension type is dropped. *)
Fixpoint clonable (v : value) : Prop :=
  match v with
  | VNilP | VBinary _ _ | VExBinary _ _ => False
  | VObject _ kvs => (fix go l := match l with [] => True | kv :: r => clonable (snd kv) /\ go r end) kvs
  | VArray l => (fix go l := match l with [] => True | x :: r => clonable x /\ go r end) l
  | _ => True
  end.
Fixpoint strip (v : value) : value :=
  match v with
  | VInt _ n => VInt 0 n
  | VObject u kvs => VObject u (map (fun kv => (fst kv, strip (snd kv))) kvs)
  | VArray l => VArray (map strip l)
  | _ => v
  end.
(** The graph under [l] is in use and its booleans, NaN and Inf are the shared constants. *)
Definition cloneable_graph (s : st) (l : nat) : Prop :=
  forall x, reach (hp s) l x -> live s x /\ (vt_code TTrue <= vt_code (c_dt (hp s x)) -> (x < 5)%nat).

(** ** Abstraction depends on the graph only *)
Lemma clonable_obj u kvs : clonable (VObject u kvs) <-> Forall (fun kv => clonable (snd kv)) kvs.
Proof.
  cbn [clonable]. induction kvs as [|kv r IH].
  - split; [constructor|auto].
  - rewrite IH. split; [intros [A B]; constructor; auto|intros A; inversion A; auto].
Qed.
Lemma clonable_arr l : clonable (VArray l) <-> Forall clonable l.
Proof.
  cbn [clonable]. induction l as [|kv r IH].
  - split; [constructor|auto].
  - rewrite IH. split; [intros [A B]; constructor; auto|intros A; inversion A; auto].
Qed.

Definition preach (h : nat -> cell) (p : ptr) (x : nat) : Prop := exists l, p = Some l /\ reach h l x.

Lemma Forall2_impl_in {A B} (R S : A -> B -> Prop) l m : Forall2 R l m ->
  (forall a b, In a l -> R a b -> S a b) -> Forall2 S l m.
Proof. intros H. induction H; intros F; constructor; [apply F; [left; auto|auto]|apply IHForall2; intros; apply F; [right; auto|auto]]. Qed.

Lemma rep_obj_inv h p u kvs : rep h p (VObject u kvs) -> exists l, p = Some l /\ c_dt (h l) = TObject /\
  u = c_unesc (h l) /\ Forall2 (fun a b => fst a = fst b /\ rep h (snd a) (snd b)) (c_kvs (h l)) kvs.
Proof. intros H. inversion H; subst. exists l. auto. Qed.
Lemma rep_arr_inv h p vs : rep h p (VArray vs) -> exists l, p = Some l /\ c_dt (h l) = TArray /\ Forall2 (rep h) (c_arr (h l)) vs.
Proof. intros H. inversion H; subst. exists l. auto. Qed.
Lemma rep_obj_intro h l u kvs : c_dt (h l) = TObject -> u = c_unesc (h l) ->
  Forall2 (fun a b => fst a = fst b /\ rep h (snd a) (snd b)) (c_kvs (h l)) kvs -> rep h (Some l) (VObject u kvs).
Proof. intros D -> F. apply rep_obj; auto. Qed.

Lemma rep_frame h h' v : forall p, rep h p v -> (forall x, preach h p x -> h' x = h x) -> rep h' p v.
Proof.
  induction v using value_ind'; intros p R F.
  2:{ apply rep_obj_inv in R as (l & -> & D & -> & FA).
    assert (Fl : h' l = h l) by (apply F; exists l; split; [reflexivity|constructor]).
    apply rep_obj_intro; [rewrite Fl; auto|rewrite Fl; auto|]. rewrite Fl.
    assert (FF : forall a, In a (c_kvs (h l)) -> forall x, preach h (snd a) x -> h' x = h x).
    { intros a I x (m & Q1 & R1). apply F. exists l. split; auto. eapply reach_trans; [apply reach_child|exact R1].
      unfold sees. rewrite D. rewrite <- Q1. apply in_map; auto. }
    clear - H FA FF. revert FF. induction FA as [|a b l1 l2 [K R1] H3 IH]; intros FF; constructor.
    + split; auto. inversion H as [|? ? HA HB]; subst. apply HA; auto. intros x X. apply (FF a); [left; auto|auto].
    + apply IH; [inversion H; auto|]. intros a' I. apply FF. right; auto. }
  2:{ apply rep_arr_inv in R as (l0 & -> & D & FA).
    assert (Fl : h' l0 = h l0) by (apply F; exists l0; split; [reflexivity|constructor]).
    apply rep_arr; [rewrite Fl; auto|]. rewrite Fl.
    assert (FF : forall a, In a (c_arr (h l0)) -> forall x, preach h a x -> h' x = h x).
    { intros a I x (m & Q1 & R1). apply F. exists l0. split; auto. eapply reach_trans; [apply reach_child|exact R1].
      unfold sees. rewrite D. rewrite <- Q1. auto. }
    clear - H FA FF. revert FF. induction FA as [|a b l1 l2 R1 H3 IH]; intros FF; constructor.
    + inversion H as [|? ? HA HB]; subst. apply HA; auto. intros x X. apply (FF a); [left; auto|auto].
    + apply IH; [inversion H; auto|]. intros a' I. apply FF. right; auto. }
  all: inversion R; subst; try (assert (Fl : h' l = h l) by (apply F; exists l; split; [reflexivity|constructor]));
    try rewrite <- Fl; constructor; congruence.
Qed.

(** A cell keeps its meaning if it is unchanged, or if it is a constant of the same type. *)
Lemma rep_same h h' v : forall p, rep h p v ->
  (forall x, preach h p x -> h' x = h x \/ (c_dt (h' x) = c_dt (h x) /\ vt_code TNull <= vt_code (c_dt (h x)))) -> rep h' p v.
Proof.
  induction v using value_ind'; intros p R F.
  2:{ apply rep_obj_inv in R as (l & -> & D & -> & FA).
    assert (Fl : h' l = h l).
    { destruct (F l) as [Q|[_ Q]]; [exists l; split; [reflexivity|constructor]|exact Q|rewrite D in Q; cbn in Q; lia]. }
    apply rep_obj_intro; [rewrite Fl; auto|rewrite Fl; auto|]. rewrite Fl.
    assert (FF : forall a, In a (c_kvs (h l)) -> forall x, preach h (snd a) x ->
      h' x = h x \/ (c_dt (h' x) = c_dt (h x) /\ vt_code TNull <= vt_code (c_dt (h x)))).
    { intros a I x (m & Q1 & R1). apply F. exists l. split; auto. eapply reach_trans; [apply reach_child|exact R1].
      unfold sees. rewrite D. rewrite <- Q1. apply in_map; auto. }
    clear - H FA FF. revert FF. induction FA as [|a b l1 l2 [K R1] H3 IH]; intros FF; constructor.
    + split; auto. inversion H as [|? ? HA HB]; subst. apply HA; auto. intros x X. apply (FF a); [left; auto|auto].
    + apply IH; [inversion H; auto|]. intros a' I. apply FF. right; auto. }
  2:{ apply rep_arr_inv in R as (l0 & -> & D & FA).
    assert (Fl : h' l0 = h l0).
    { destruct (F l0) as [Q|[_ Q]]; [exists l0; split; [reflexivity|constructor]|exact Q|rewrite D in Q; cbn in Q; lia]. }
    apply rep_arr; [rewrite Fl; auto|]. rewrite Fl.
    assert (FF : forall a, In a (c_arr (h l0)) -> forall x, preach h a x ->
      h' x = h x \/ (c_dt (h' x) = c_dt (h x) /\ vt_code TNull <= vt_code (c_dt (h x)))).
    { intros a I x (m & Q1 & R1). apply F. exists l0. split; auto. eapply reach_trans; [apply reach_child|exact R1].
      unfold sees. rewrite D. rewrite <- Q1. auto. }
    clear - H FA FF. revert FF. induction FA as [|a b l1 l2 R1 H3 IH]; intros FF; constructor.
    + inversion H as [|? ? HA HB]; subst. apply HA; auto. intros x X. apply (FF a); [left; auto|auto].
    + apply IH; [inversion H; auto|]. intros a' I. apply FF. right; auto. }
  all: inversion R; subst; try (destruct (F l) as [Fl|[Fl T]]; [exists l; split; [reflexivity|constructor]| |]);
    try rewrite <- Fl; try (constructor; congruence);
    exfalso; match goal with H : c_dt _ = _ |- _ => rewrite H in T; cbn in T; lia end.
Qed.

Section CloneProof.
Variable G : nat -> nat.
Notation N := none_set.

(** ** Only cells and caches of [P], [PC] and new ones are touched since [s0]. *)
Record conf (P PC : nat_set) (s0 s : st) : Prop := {
  f_nx : (nx s0 <= nx s)%nat;
  f_nc : (nc s0 <= nc s)%nat;
  f_hp : forall x, (x < nx s0)%nat -> ~ P x -> hp s x = hp s0 x;
  f_cs : forall k, (k < nc s0)%nat -> ~ PC k -> cs s k = cs s0 k;
  f_pl : pl s = pl s0;
  f_slots : forall k x, (PC k \/ (nc s0 <= k)%nat) -> (k < nc s)%nat -> In x (ca_slots (cs s k)) -> P x \/ (nx s0 <= x)%nat }.
Definition mine (P : nat_set) (s0 : st) (x : nat) : Prop := P x \/ (nx s0 <= x)%nat.

Lemma conf_set P PC s0 s l c : conf P PC s0 s -> mine P s0 l -> conf P PC s0 (set_cell s l c).
Proof.
  intros [A B C D F H] M. constructor; cbn [set_cell hp nx cs nc pl]; auto.
  intros x X NP. rewrite upd_other; auto. intros ->. destruct M; [auto|lia].
Qed.
Lemma conf_reset P PC s0 s l t : conf P PC s0 s -> mine P s0 l -> conf P PC s0 (Reset s l t).
Proof. intros C M. unfold Reset. destruct (ReadOnly l); auto. apply conf_set; auto. Qed.
Lemma conf_cache P PC s0 s k c : conf P PC s0 s -> (PC k \/ (nc s0 <= k)%nat) ->
  (forall x, In x (ca_slots c) -> mine P s0 x) -> conf P PC s0 (set_cache s k c).
Proof.
  intros [A B C D F H] M Sl. constructor; cbn [set_cache hp nx cs nc pl]; auto.
  - intros k' K NP. rewrite upd_other; auto. intros ->. destruct M; [auto|lia].
  - intros k' x M' K I. destruct (Nat.eq_dec k' k) as [->|Q].
    + rewrite upd_same in I. apply Sl; auto.
    + rewrite upd_other in I by auto. apply (H k' x); auto.
Qed.

Lemma copy_old f src dst g l : (l < dst)%nat -> copy_cells f src dst g l = g l.
Proof.
  revert dst. induction src as [|a src IH]; intros dst L; cbn [copy_cells]; auto.
  rewrite upd_other by lia. apply IH. lia.
Qed.
Lemma conf_getValue P PC s0 s c t : wf s -> ok_cache N s c -> conf P PC s0 s ->
  (forall k, c = Some k -> PC k \/ (nc s0 <= k)%nat) ->
  conf P PC s0 (snd (getValue G s c t)) /\ mine P s0 (fst (getValue G s c t)).
Proof.
  intros W OC C CP. destruct c as [k|].
  - destruct (OC k eq_refl) as [K _]. pose proof (CP k eq_refl) as M.
    destruct (i_cache _ _ _ W k K) as (LL & NE & _ & _).
    assert (R : conf P PC s0 (cache_room G s k) /\ (ca_len (cs s k) < List.length (ca_slots (cs (cache_room G s k) k)))%nat /\ nc (cache_room G s k) = nc s).
    { unfold cache_room. destruct (Nat.ltb_spec (ca_len (cs s k)) (List.length (ca_slots (cs s k)))) as [L|L].
      - split; [apply conf_cache; auto|split; [cbn [set_cache cs]; rewrite upd_same; cbn [ca_slots]; auto|reflexivity]].
        intros x X. apply (f_slots _ _ _ _ C k x); auto.
      - set (n := S (ca_len (cs s k) + G (ca_len (cs s k)))).
        split; [|split; [cbn [cs]; rewrite upd_same; cbn [ca_slots]; rewrite seq_length; unfold n; lia|reflexivity]].
        destruct C as [A B C D F H]. constructor; cbn [hp nx cs nc pl]; auto; try lia.
        + intros x X NP. rewrite copy_old by lia. auto.
        + intros k' K' NP. rewrite upd_other; auto. intros ->. destruct M; [auto|lia].
        + intros k' x M' K' I. destruct (Nat.eq_dec k' k) as [->|Q].
          * rewrite upd_same in I. cbn [ca_slots] in I. apply In_seq_ge in I. right; lia.
          * rewrite upd_other in I by auto. apply (H k' x); auto. }
    destruct R as (R & L & NC). unfold getValue. set (s1 := cache_room G s k) in *.
    set (l := nth (ca_len (cs s k)) (ca_slots (cs s1 k)) 0%nat).
    assert (Ml : mine P s0 l).
    { apply (f_slots _ _ _ _ R k l); auto; [lia|]. apply nth_In. exact L. }
    assert (R2 : conf P PC s0 (Reset s1 l t)) by (apply conf_reset; auto).
    assert (CS : cs (Reset s1 l t) = cs s1) by (unfold Reset; destruct (ReadOnly l); reflexivity).
    destruct (ca_root (cs s k)); cbn [fst snd]; split; auto.
    apply conf_set; auto. apply conf_cache; auto. cbn [ca_slots]. rewrite CS. intros x X.
    apply (f_slots _ _ _ _ R k x); auto. lia.
  - unfold getValue. cbn [fst snd]. destruct C as [A B C D F H]. split; [|right; lia].
    constructor; cbn [hp nx cs nc pl]; auto; try lia.
    + intros x X NP. rewrite upd_other by lia. auto.
    + intros k K NP. rewrite upd_other by lia. auto.
    + intros k x M K I. destruct (Nat.eq_dec k (nc s)) as [->|Q].
      * rewrite upd_same in I. cbn [ca_slots] in I. apply In_seq_ge in I. right; lia.
      * rewrite upd_other in I by auto. apply (H k x); auto. lia.
Qed.

Lemma reach_cases h a z : reach h a z -> z = a \/ exists y, sees (h a) y /\ reach h y z.
Proof.
  intros H. induction H as [|x y H IH S]; [left; auto|]. right. destruct IH as [->|(w & Sw & R)].
  - exists y. split; [exact S|constructor].
  - exists w. split; [exact Sw|]. eapply reach_step; eauto.
Qed.
Lemma const_live s x : wf s -> (x < 5)%nat -> live s x.
Proof.
  intros W L. split; [pose proof (i_nx _ _ _ W); lia|]. intros k K I. apply In_skipn in I.
  destruct (i_cache _ _ _ W k K) as (_ & _ & _ & F). rewrite Forall_forall in F. apply F in I. lia.
Qed.

(** ** What one call of [clone] guarantees *)
Definition from_ok (PC : nat_set) (s0 : st) (c : option nat) : Prop :=
  forall k, c = Some k -> PC k \/ (nc s0 <= k)%nat.
Record cloned (s : st) (c : option nat) (w : value) (r : nat) (s' : st) : Prop := {
  k_lives : forall x, live s x -> live s' x;
  k_frame : forall x, live s x -> hp s' x = hp s x;
  k_rep : rep (hp s') (Some r) w;
  k_new : forall x, reach (hp s') r x -> (x < 5)%nat \/ ((5 <= x)%nat /\ ~ live s x /\ live s' x);
  k_conf : forall P PC s0, conf P PC s0 s -> from_ok PC s0 c ->
             conf P PC s0 s' /\ forall x, reach (hp s') r x -> (x < 5)%nat \/ mine P s0 x;
  k_tr : forall P PC, inv P PC s -> ok_cache PC s c ->
           tr P PC s s' /\ forall x, reach (hp s') r x -> ok_loc P s' x;
  k_tree : treelike (hp s') r }.
(** The same for the loops that fill [r], and for each child added. *)
Record filled (s : st) (c : option nat) (r : nat) (s' : st) : Prop := {
  fl_lives : forall x, live s x -> live s' x;
  fl_frame : forall x, live s x -> x <> r -> hp s' x = hp s x;
  fl_conf : forall P PC s0, conf P PC s0 s -> from_ok PC s0 c -> mine P s0 r -> conf P PC s0 s';
  fl_tr : forall P PC, inv P PC s -> ok_cache PC s c -> ok_loc P s r -> tr P PC s s' }.
Record kid (s : st) (c : option nat) (r : nat) (s' : st) (y : nat) : Prop := {
  kd_new : forall x, reach (hp s') y x -> (x < 5)%nat \/ ((5 <= x)%nat /\ ~ live s x /\ live s' x);
  kd_conf : forall P PC s0, conf P PC s0 s -> from_ok PC s0 c -> mine P s0 r ->
             forall x, reach (hp s') y x -> (x < 5)%nat \/ mine P s0 x;
  kd_tr : forall P PC, inv P PC s -> ok_cache PC s c -> ok_loc P s r ->
           forall x, reach (hp s') y x -> ok_loc P s' x }.

Lemma filled_refl s c r : filled s c r s.
Proof. constructor; auto. intros; apply tr_refl; auto. Qed.
Lemma filled_trans s c r s1 s2 : filled s c r s1 -> filled s1 c r s2 -> filled s c r s2.
Proof.
  intros [A B C D] [A' B' C' D']. constructor; auto.
  - intros x L Q. rewrite B' by auto. auto.
  - intros P PC I O K. pose proof (D _ PC I O K) as T. apply (tr_trans _ _ _ s1); auto.
    apply D'; [apply T|eapply ok_cache_tr; eauto|eapply ok_loc_tr; eauto].
Qed.
Lemma kid_before s c r s1 s' y : filled s c r s1 -> kid s1 c r s' y -> kid s c r s' y.
Proof.
  intros [A B C D] [A' B' C']. constructor.
  - intros x R. destruct (A' x R) as [L|(L & L1 & L2)]; [left; auto|right; split; [auto|split; auto]].
  - intros P PC s0 K O M. apply (B' P PC s0); auto.
  - intros P PC I O K. pose proof (D _ PC I O K) as T.
    apply (C' P PC); [apply T|eapply ok_cache_tr; eauto|eapply ok_loc_tr; eauto].
Qed.
Lemma kid_after s c r s1 s' y : wf s1 -> live s r -> (5 <= r)%nat -> filled s c r s1 -> filled s1 c r s' ->
  kid s c r s1 y -> kid s c r s' y /\ (forall x, reach (hp s1) y x -> hp s' x = hp s1 x).
Proof.
  intros W Lr L5 F F' [A B C].
  assert (Q : forall x, reach (hp s1) y x -> hp s' x = hp s1 x).
  { intros x R. destruct (A x R) as [L|(L & L1 & L2)].
    - apply (fl_frame _ _ _ _ F'); [apply const_live; auto|lia].
    - apply (fl_frame _ _ _ _ F'); [auto|]. intros ->. auto. }
  split; [|exact Q]. pose proof (reach_same _ _ _ Q) as RS. constructor.
  - intros x R. apply RS in R. destruct (A x R) as [L|(L & L1 & L2)]; auto.
    right. split; [auto|split; [auto|]]. apply (fl_lives _ _ _ _ F'); auto.
  - intros P PC s0 K O M x R. apply RS in R. eapply B; eauto.
  - intros P PC I O K x R. apply RS in R. pose proof (fl_tr _ _ _ _ F P PC I O K) as T.
    eapply ok_loc_tr; [|eapply C; eauto]. apply (fl_tr _ _ _ _ F'); [apply T|eapply ok_cache_tr; eauto|eapply ok_loc_tr; eauto].
Qed.
(** Cloning one child and storing it in [r]. *)
Lemma fill_one s c r w x s1 nc : wf s -> ok_cache N s c -> live s r -> (5 <= r)%nat -> cloned s c w x s1 ->
  c_dt nc = c_dt (hp s1 r) ->
  (forall P PC s', ok_cell P PC s' (hp s1 r) -> ok_ptr P s' (Some x) -> ok_cell P PC s' nc) ->
  wf (set_cell s1 r nc) /\ filled s c r (set_cell s1 r nc) /\ kid s c r (set_cell s1 r nc) x /\
  rep (hp (set_cell s1 r nc)) (Some x) w /\ treelike (hp (set_cell s1 r nc)) x.
Proof.
  intros W OC L L5 CL DT OK.
  assert (NR : forall z, reach (hp s1) x z -> z <> r).
  { intros z R ->. destruct (k_new _ _ _ _ _ CL r R) as [Q|(_ & Q & _)]; [lia|auto]. }
  assert (FR : forall z, reach (hp s1) x z -> hp (set_cell s1 r nc) z = hp s1 z).
  { intros z R. cbn [set_cell hp]. apply upd_other. auto. }
  pose proof (reach_same _ _ _ FR) as RS.
  assert (TR : forall P PC, inv P PC s -> ok_cache PC s c -> ok_loc P s r ->
     tr P PC s s1 /\ tr P PC s (set_cell s1 r nc) /\ (forall z, reach (hp s1) x z -> ok_loc P s1 z)).
  { intros P PC I O K. destruct (k_tr _ _ _ _ _ CL P PC I O) as [T1 T2].
    split; [exact T1|]. split; [|exact T2]. apply (tr_trans _ _ _ s1); auto. apply tr_write; auto.
    - apply T1.
    - eapply ok_loc_tr; eauto.
    - apply OK; [apply cell_ok_at; [apply T1|eapply ok_loc_tr; eauto]|]. apply ok_ptr_some. apply T2. constructor. }
  split; [apply (TR N N W OC); split; [apply L|intros []]|]. split; [|split].
  - constructor.
    + intros z Z. apply live_set_cell. apply (k_lives _ _ _ _ _ CL); auto.
    + intros z Z Q. cbn [set_cell hp]. rewrite upd_other by auto. apply (k_frame _ _ _ _ _ CL); auto.
    + intros P PC s0 K O M. apply conf_set; auto. apply (k_conf _ _ _ _ _ CL P PC s0 K O).
    + intros P PC I O K. apply (TR P PC I O K).
  - constructor.
    + intros z R. apply RS in R. destruct (k_new _ _ _ _ _ CL z R) as [Q|(Q1 & Q2 & Q3)]; [left; auto|right].
      split; [auto|split; [auto|apply live_set_cell; auto]].
    + intros P PC s0 K O M z R. apply RS in R. eapply (k_conf _ _ _ _ _ CL P PC s0 K O); auto.
    + intros P PC I O K z R. apply RS in R. destruct (TR P PC I O K) as (T1 & _ & T3). exact (T3 z R).
  - split; [|eapply treelike_frame; [exact FR|apply (k_tree _ _ _ _ _ CL)]].
    apply (rep_frame (hp s1)); [apply (k_rep _ _ _ _ _ CL)|]. intros z (l & Q & R). injection Q as <-. auto.
Qed.
(** A child and those added after it. *)
Lemma bush_kids s c r s2 s' x new : wf s2 -> live s r -> (5 <= r)%nat -> filled s c r s2 -> filled s2 c r s' ->
  kid s c r s2 x -> treelike (hp s2) x -> bushes (hp s') new -> (forall y, In (Some y) new -> kid s2 c r s' y) ->
  bushes (hp s') (Some x :: new).
Proof.
  intros W2 L L5 F1 F K1 T B A. destruct (kid_after s c r s2 s' x W2 L L5 F1 F K1) as [_ Q].
  apply bushes_cons; [exact B|eapply treelike_frame; [exact Q|exact T]|]. intros k z I Rk Rx.
  apply (reach_same _ _ _ Q) in Rx. destruct (kd_new _ _ _ _ _ (A k I) z Rk) as [X|(_ & X & _)]; [exact X|].
  destruct (kd_new _ _ _ _ _ K1 z Rx) as [Y|(_ & _ & Y)]; [exact Y|contradiction].
Qed.

Definition src_ok (s : st) (p : ptr) : Prop := forall l, p = Some l -> cloneable_graph s l.
(** [clone] works on trees of content [v]. *)
Definition clones (v : value) : Prop :=
  exists n0, forall fuel s p c, (n0 <= fuel)%nat -> wf s -> ok_cache N s c -> src_ok s p -> rep (hp s) p v ->
    exists r s', clone G fuel s p c = Ok (r, s') /\ cloned s c (strip v) r s'.

Lemma src_after s c r s' p v : filled s c r s' -> src_ok s p -> (forall l, p = Some l -> ~ reach (hp s) l r) ->
  rep (hp s) p v ->
  src_ok s' p /\ rep (hp s') p v /\ (forall l, p = Some l -> ~ reach (hp s') l r).
Proof.
  intros F S NR R.
  assert (Q : forall l, p = Some l -> forall x, reach (hp s) l x -> hp s' x = hp s x).
  { intros l P x X. apply (fl_frame _ _ _ _ F); [apply (S l P x X)|]. intros ->. apply (NR l P X). }
  split; [|split].
  - intros l P x X. apply (reach_same _ _ _ (Q l P)) in X. rewrite (Q l P x X).
    destruct (S l P x X) as [A B]. split; [apply (fl_lives _ _ _ _ F); auto|auto].
  - apply (rep_frame (hp s)); auto. intros x (l & P & X). eapply Q; eauto.
  - intros l P X. apply (reach_same _ _ _ (Q l P)) in X. eapply NR; eauto.
Qed.

Lemma skipn_nth {A} (l : list A) : forall i x r, skipn i l = x :: r -> nth_error l i = Some x /\ skipn (S i) l = r.
Proof. induction l as [|a l IH]; intros [|i] x r H; try discriminate; cbn in *; [injection H as <- <-; auto|auto]. Qed.
Lemma skipn_end {A} (l : list A) : forall i, skipn i l = [] -> nth_error l i = None.
Proof. induction l as [|a l IH]; intros [|i] H; try discriminate; cbn in *; auto. Qed.

Lemma clone_kvs_S f s r src i c : clone_kvs G (S f) s r src i c =
  match nth_error (c_kvs (hp s src)) i with
  | None => Ok s
  | Some (k, p) => do (x, s1) <- clone G f s p c;
      clone_kvs G f (set_cell s1 r (push_kv G (hp s1 r) k (Some x))) r src (S i) c
  end.
Proof. reflexivity. Qed.
Lemma clone_arr_S f s r src i c : clone_arr G (S f) s r src i c =
  match nth_error (c_arr (hp s src)) i with
  | None => Ok s
  | Some p => do (x, s1) <- clone G f s p c;
      clone_arr G f (set_cell s1 r (w_arr (hp s1 r) (c_arr (hp s1 r) ++ [Some x]))) r src (S i) c
  end.
Proof. reflexivity. Qed.
Lemma clones_kvs vs : Forall (fun kv => clones (snd kv)) vs ->
  exists n0, forall fuel s r src i c, (n0 <= fuel)%nat -> wf s -> ok_cache N s c -> live s r -> (5 <= r)%nat ->
    live s src -> src <> r ->
    (forall kv, In kv (skipn i (c_kvs (hp s src))) -> src_ok s (snd kv) /\ forall l, snd kv = Some l -> ~ reach (hp s) l r) ->
    Forall2 (fun a b => fst a = fst b /\ rep (hp s) (snd a) (snd b)) (skipn i (c_kvs (hp s src))) vs ->
    exists s' new, clone_kvs G fuel s r src i c = Ok s' /\ wf s' /\ filled s c r s' /\
      c_kvs (hp s' r) = c_kvs (hp s r) ++ new /\ c_dt (hp s' r) = c_dt (hp s r) /\
      c_unesc (hp s' r) = c_unesc (hp s r) /\
      Forall2 (fun a b => fst a = fst b /\ rep (hp s') (snd a) (snd b)) new (map (fun kv => (fst kv, strip (snd kv))) vs) /\
      (forall y, In (Some y) (map snd new) -> kid s c r s' y) /\ bushes (hp s') (map snd new).
Proof.
  induction vs as [|[k v] vs IH]; intros FA.
  - exists 1%nat. intros fuel s r src i c Fu W OC L L5 Ls NE SO F2.
    destruct fuel as [|fuel]; [lia|]. inversion F2 as [Q|]; subst. symmetry in Q.
    exists s, []. rewrite clone_kvs_S. rewrite (skipn_end _ _ Q). rewrite app_nil_r.
    refine (conj eq_refl (conj W (conj (filled_refl _ _ _) (conj eq_refl (conj eq_refl (conj eq_refl (conj _ (conj _ (bushes_nil _))))))))); [constructor|intros y []].
  - inversion FA as [|? ? [n1 H1] FA']; subst. destruct (IH FA') as [n2 H2]. exists (S (Nat.max n1 n2)).
    intros fuel s r src i c Fu W OC L L5 Ls NE SO F2. destruct fuel as [|fuel]; [lia|].
    destruct (skipn i (c_kvs (hp s src))) as [|[k' p] rest] eqn:SK; [inversion F2|].
    apply skipn_nth in SK as [NT SK]. inversion F2 as [|? ? ? ? [KE RP] F2']; subst. cbn [fst snd] in KE, RP. subst k'.
    rewrite clone_kvs_S. rewrite NT.
    destruct (SO (k, p) (or_introl eq_refl)) as [S1 S2]. cbn [snd] in S1, S2.
    destruct (H1 fuel s p c) as (x & s1 & E1 & CL); auto; [lia|]. cbn [snd] in *. rewrite E1. cbn [bind].
    destruct (fill_one s c r (strip v) x s1 (push_kv G (hp s1 r) k (Some x)) W OC L L5 CL) as (W2 & F1 & K1 & R1 & T1).
    { apply dt_push. } { intros P PC s' A B. apply okc_push; auto. }
    set (s2 := set_cell s1 r (push_kv G (hp s1 r) k (Some x))) in *.
    assert (SRC : hp s2 src = hp s src) by (apply (fl_frame _ _ _ _ F1); auto).
    assert (HR : hp s2 r = push_kv G (hp s r) k (Some x)).
    { unfold s2. cbn [set_cell hp]. rewrite upd_same. rewrite (k_frame _ _ _ _ _ CL r L). reflexivity. }
    assert (T0 : tr N N s s2) by (apply (fl_tr _ _ _ _ F1); [exact W|exact OC|split; [apply L|intros []]]).
    destruct (H2 fuel s2 r src (S i) c) as (s' & new & E2 & W' & F & A1 & A2 & A3 & A4 & A5 & A6); auto; try lia.
    + eapply ok_cache_tr; eauto.
    + apply (fl_lives _ _ _ _ F1); auto.
    + apply (fl_lives _ _ _ _ F1); auto.
    + rewrite SRC. intros kv I. destruct (SO kv (or_intror I)) as [Sa Sb].
      destruct (In_nth_error _ _ I) as [j Ij].
      assert (RJ : exists u, rep (hp s) (snd kv) u).
      { clear - F2' I. induction F2' as [|a b l1 l2 [_ Q] F2' IH]; [destruct I|]. destruct I as [<-|I]; eauto. }
      destruct RJ as [u RU]. destruct (src_after s c r s2 (snd kv) u F1 Sa Sb RU) as (X & _ & Y). auto.
    + rewrite SRC. eapply Forall2_impl_in; [exact F2'|]. intros a b I [Q R]. split; [exact Q|].
      destruct (SO a (or_intror I)) as [Sa Sb]. apply (src_after s c r s2 (snd a) (snd b) F1 Sa Sb R).
    + assert (PK : c_kvs (hp s2 r) = c_kvs (hp s r) ++ [(k, Some x)] /\ c_dt (hp s2 r) = c_dt (hp s r) /\ c_unesc (hp s2 r) = c_unesc (hp s r)).
      { rewrite HR. unfold push_kv. destruct (c_spare (hp s r)); repeat split. }
      destruct PK as (P1 & P2 & P3).
      destruct (kid_after s c r s2 s' x W2 L L5 F1 F K1) as [K1' Q1].
      exists s', ((k, Some x) :: new). split; [exact E2|]. split; [exact W'|].
      split; [eapply filled_trans; eauto|].
      split; [rewrite A1, P1, <- app_assoc; reflexivity|]. split; [congruence|]. split; [congruence|]. split; [|split].
      * cbn [map]. constructor; [|exact A4]. split; [reflexivity|]. cbn [snd]. apply (rep_frame (hp s2)); [exact R1|].
        intros z (l & Q & R). injection Q as <-. auto.
      * cbn [map snd]. intros y [Y|Y]; [injection Y as <-; exact K1'|]. eapply kid_before; eauto.
      * cbn [map snd]. eapply (bush_kids s c r s2 s' x); eauto.
Qed.
Lemma clones_arr vs : Forall clones vs ->
  exists n0, forall fuel s r src i c, (n0 <= fuel)%nat -> wf s -> ok_cache N s c -> live s r -> (5 <= r)%nat ->
    live s src -> src <> r ->
    (forall kv, In kv (skipn i (c_arr (hp s src))) -> src_ok s kv /\ forall l, kv = Some l -> ~ reach (hp s) l r) ->
    Forall2 (rep (hp s)) (skipn i (c_arr (hp s src))) vs ->
    exists s' new, clone_arr G fuel s r src i c = Ok s' /\ wf s' /\ filled s c r s' /\
      c_arr (hp s' r) = c_arr (hp s r) ++ new /\ c_dt (hp s' r) = c_dt (hp s r) /\
      c_unesc (hp s' r) = c_unesc (hp s r) /\
      Forall2 (rep (hp s')) new (map strip vs) /\
      (forall y, In (Some y) new -> kid s c r s' y) /\ bushes (hp s') new.
Proof.
  induction vs as [|v vs IH]; intros FA.
  - exists 1%nat. intros fuel s r src i c Fu W OC L L5 Ls NE SO F2.
    destruct fuel as [|fuel]; [lia|]. inversion F2 as [Q|]; subst. symmetry in Q.
    exists s, []. rewrite clone_arr_S. rewrite (skipn_end _ _ Q). rewrite app_nil_r.
    refine (conj eq_refl (conj W (conj (filled_refl _ _ _) (conj eq_refl (conj eq_refl (conj eq_refl (conj _ (conj _ (bushes_nil _))))))))); [constructor|intros y []].
  - inversion FA as [|? ? [n1 H1] FA']; subst. destruct (IH FA') as [n2 H2]. exists (S (Nat.max n1 n2)).
    intros fuel s r src i c Fu W OC L L5 Ls NE SO F2. destruct fuel as [|fuel]; [lia|].
    destruct (skipn i (c_arr (hp s src))) as [|p rest] eqn:SK; [inversion F2|].
    apply skipn_nth in SK as [NT SK]. inversion F2 as [|? ? ? ? RP F2']; subst.
    rewrite clone_arr_S. rewrite NT.
    destruct (SO p (or_introl eq_refl)) as [S1 S2].
    destruct (H1 fuel s p c) as (x & s1 & E1 & CL); auto; [lia|]. rewrite E1. cbn [bind].
    destruct (fill_one s c r (strip v) x s1 (w_arr (hp s1 r) (c_arr (hp s1 r) ++ [Some x])) W OC L L5 CL) as (W2 & F1 & K1 & R1 & T1).
    { reflexivity. } { intros P PC s' A B. apply okc_app; auto. }
    set (s2 := set_cell s1 r (w_arr (hp s1 r) (c_arr (hp s1 r) ++ [Some x]))) in *.
    assert (SRC : hp s2 src = hp s src) by (apply (fl_frame _ _ _ _ F1); auto).
    assert (HR : hp s2 r = w_arr (hp s r) (c_arr (hp s r) ++ [Some x])).
    { unfold s2. cbn [set_cell hp]. rewrite upd_same. rewrite (k_frame _ _ _ _ _ CL r L). reflexivity. }
    assert (T0 : tr N N s s2) by (apply (fl_tr _ _ _ _ F1); [exact W|exact OC|split; [apply L|intros []]]).
    destruct (H2 fuel s2 r src (S i) c) as (s' & new & E2 & W' & F & A1 & A2 & A3 & A4 & A5 & A6); auto; try lia.
    + eapply ok_cache_tr; eauto.
    + apply (fl_lives _ _ _ _ F1); auto.
    + apply (fl_lives _ _ _ _ F1); auto.
    + rewrite SRC. intros kv I. destruct (SO kv (or_intror I)) as [Sa Sb].
      destruct (In_nth_error _ _ I) as [j Ij].
      assert (RJ : exists u, rep (hp s) kv u).
      { clear - F2' I. induction F2' as [|a b l1 l2 Q F2' IH]; [destruct I|]. destruct I as [<-|I]; eauto. }
      destruct RJ as [u RU]. destruct (src_after s c r s2 kv u F1 Sa Sb RU) as (X & _ & Y). auto.
    + rewrite SRC. eapply Forall2_impl_in; [exact F2'|]. intros a b I R.
      destruct (SO a (or_intror I)) as [Sa Sb]. apply (src_after s c r s2 a b F1 Sa Sb R).
    + assert (PK : c_arr (hp s2 r) = c_arr (hp s r) ++ [Some x] /\ c_dt (hp s2 r) = c_dt (hp s r) /\ c_unesc (hp s2 r) = c_unesc (hp s r)).
      { rewrite HR. repeat split. }
      destruct PK as (P1 & P2 & P3).
      destruct (kid_after s c r s2 s' x W2 L L5 F1 F K1) as [K1' Q1].
      exists s', (Some x :: new). split; [exact E2|]. split; [exact W'|].
      split; [eapply filled_trans; eauto|].
      split; [rewrite A1, P1, <- app_assoc; reflexivity|]. split; [congruence|]. split; [congruence|]. split; [|split].
      * cbn [map]. constructor; [|exact A4]. apply (rep_frame (hp s2)); [exact R1|].
        intros z (l & Q & R). injection Q as <-. auto.
      * intros y [Y|Y]; [injection Y as <-; exact K1'|]. eapply kid_before; eauto.
      * eapply (bush_kids s c r s2 s' x); eauto.
Qed.

Record base (s : st) (c : option nat) (r : nat) (s1 : st) : Prop := {
  b_lives : forall x, live s x -> live s1 x;
  b_frame : forall x, live s x -> hp s1 x = hp s x;
  b_5 : (5 <= r)%nat;
  b_new : ~ live s r;
  b_live : live s1 r;
  b_conf : forall P PC s0, conf P PC s0 s -> from_ok PC s0 c -> conf P PC s0 s1 /\ mine P s0 r;
  b_tr : forall P PC, inv P PC s -> ok_cache PC s c -> tr P PC s s1 /\ ok_loc P s1 r }.
Lemma get_base s c t r s1 : wf s -> ok_cache N s c -> getValue G s c t = (r, s1) ->
  base s c r s1 /\ clean (hp s1 r) t.
Proof.
  intros W OC H. pose proof (getValue_got G s c t W OC) as GV. rewrite H in GV. cbn [fst snd] in GV.
  split; [|apply GV]. constructor; try apply GV.
  - intros x L. apply (got_frame _ _ _ _ _ GV L).
  - intros P PC s0 C F. pose proof (conf_getValue P PC s0 s c t W OC C F) as K. rewrite H in K. exact K.
  - intros P PC I O. pose proof (tr_getValue P PC G s c t I O) as K. rewrite H in K. cbv zeta in K. cbn [fst snd] in K. destruct K as (K1 & K2 & _). auto.
Qed.
Lemma finish s c w r s1 s2 : base s c r s1 -> filled s1 c r s2 -> rep (hp s2) (Some r) w ->
  (forall y, sees (hp s2 r) y -> kid s1 c r s2 y) -> bushes (hp s2) (kid_ptrs (hp s2 r)) -> cloned s c w r s2.
Proof.
  intros B F R K BU. constructor; auto.
  - intros x L. apply (fl_lives _ _ _ _ F), (b_lives _ _ _ _ B); auto.
  - intros x L. rewrite (fl_frame _ _ _ _ F); [apply (b_frame _ _ _ _ B); auto|apply (b_lives _ _ _ _ B); auto|].
    intros ->. apply (b_new _ _ _ _ B); auto.
  - intros x X. apply reach_cases in X as [->|(y & Sy & X)].
    + right. split; [apply (b_5 _ _ _ _ B)|split; [apply (b_new _ _ _ _ B)|]]. apply (fl_lives _ _ _ _ F), (b_live _ _ _ _ B).
    + destruct (kd_new _ _ _ _ _ (K y Sy) x X) as [L|(L1 & L2 & L3)]; [left; auto|right].
      split; [auto|split; [|auto]]. intros L. apply L2, (b_lives _ _ _ _ B); auto.
  - intros P PC s0 C FO. destruct (b_conf _ _ _ _ B P PC s0 C FO) as [C1 M].
    split; [apply (fl_conf _ _ _ _ F); auto|]. intros x X. apply reach_cases in X as [->|(y & Sy & X)]; [auto|].
    apply (kd_conf _ _ _ _ _ (K y Sy) P PC s0); auto.
  - intros P PC I O. destruct (b_tr _ _ _ _ B P PC I O) as [T1 L1].
    assert (O1 : ok_cache PC s1 c) by (eapply ok_cache_tr; eauto).
    pose proof (fl_tr _ _ _ _ F P PC (proj1 T1) O1 L1) as T2. split; [eapply tr_trans; eauto|].
    intros x X. apply reach_cases in X as [->|(y & Sy & X)]; [eapply ok_loc_tr; eauto|].
    apply (kd_tr _ _ _ _ _ (K y Sy) P PC); auto. apply T1.
  - apply treelike_kids; [exact BU|]. intros k Sk X. destruct (kd_new _ _ _ _ _ (K k Sk) r X) as [Y|(_ & Y & _)].
    + exact (Nat.lt_irrefl r (Nat.lt_le_trans _ _ _ Y (b_5 _ _ _ _ B))).
    + apply Y, (b_live _ _ _ _ B).
Qed.
Lemma bush_leaf h x : (forall y, ~ sees (h x) y) -> bushes h (kid_ptrs (h x)).
Proof. intros N i j k l p q y L Q. apply nth_error_In, kid_sees in Q. destruct (N k Q). Qed.
Lemma filled_set s c r nc : (forall P PC s', ok_cell P PC s' (hp s r) -> ok_cell P PC s' nc) -> c_dt nc = c_dt (hp s r) ->
  filled s c r (set_cell s r nc).
Proof.
  intros OK D. constructor.
  - intros x L. apply live_set_cell; auto.
  - intros x L Q. cbn [set_cell hp]. apply upd_other; auto.
  - intros; apply conf_set; auto.
  - intros P PC I O K. apply tr_write; auto. apply OK. apply cell_ok_at; auto.
Qed.

Lemma clone_eq f s l c : clone G (S f) s (Some l) c =
  let t := c_dt (hp s l) in
  if vt_code TTrue <=? vt_code t then Ok (l, s)
  else
    let (r, s1) := getValue G s c t in
    if (vt_code TInt <=? vt_code t) && (vt_code t <=? vt_code TDateTime) then
      Ok (r, set_cell s1 r (w_sv (hp s1 r) (c_sv (hp s1 l))))
    else match t with
    | TString | TRaw => Ok (r, set_cell s1 r (w_str (hp s1 r) (c_str (hp s1 l))))
    | TObject =>
        let cr := hp s1 r in
        let s2 := set_cell s1 r (w_obj cr (c_unesc (hp s1 l)) (c_kvs cr) (c_spare cr)) in
        do s3 <- clone_kvs G f s2 r l O c; Ok (r, s3)
    | TArray => do s3 <- clone_arr G f s1 r l O c; Ok (r, s3)
    | _ => Ok (r, s1)
    end.
Proof. reflexivity. Qed.

Lemma clones_const v t : (forall h p, rep h p v -> exists l, p = Some l /\ c_dt (h l) = t) ->
  vt_code TTrue <= vt_code t -> strip v = v -> clones v.
Proof.
  intros T C SV. exists 1%nat. intros fuel s p c Fu W OC SO R. destruct fuel as [|f]; [lia|].
  destruct (T _ _ R) as (l & -> & D). exists l, s. split.
  - rewrite clone_eq. cbv zeta. rewrite D. apply Z.leb_le in C. rewrite C. reflexivity.
  - rewrite SV. pose proof (SO l eq_refl) as CG.
    assert (NS : forall y, ~ sees (hp s l) y).
    { intros y. unfold sees. rewrite D. destruct t; cbn in *; try lia; auto. }
    assert (L5 : (l < 5)%nat) by (apply (CG l (reach_refl _ _)); rewrite D; exact C).
    constructor; auto.
    + intros x X. apply reach_leaf in X; auto. subst; auto.
    + intros P PC s0 CF FO. split; auto. intros x X. apply reach_leaf in X; auto. subst; auto.
    + intros P PC I O. split; [apply tr_refl; auto|]. intros x X. apply reach_leaf in X; auto. subst.
      eapply const_ok; eauto.
    + apply treelike_leaf; auto.
Qed.
Lemma clones_num v t : (forall h p, rep h p v -> exists l, p = Some l /\ c_dt (h l) = t) ->
  vt_code TInt <= vt_code t <= vt_code TDateTime ->
  (forall h h' l l', rep h (Some l) v -> c_dt (h' l') = t -> c_ext (h' l') = 0 -> c_sv (h' l') = c_sv (h l) -> rep h' (Some l') (strip v)) ->
  clones v.
Proof.
  intros T C SV. exists 1%nat. intros fuel s p c Fu W OC SO R. destruct fuel as [|f]; [lia|].
  destruct (T _ _ R) as (l & -> & D). rewrite clone_eq. cbv zeta. rewrite D.
  assert (B1 : (vt_code TTrue <=? vt_code t) = false) by (apply Z.leb_gt; cbn in *; lia). rewrite B1.
  assert (B2 : (vt_code TInt <=? vt_code t) && (vt_code t <=? vt_code TDateTime) = true) by (apply andb_true_iff; split; apply Z.leb_le; lia). rewrite B2.
  destruct (getValue G s c t) as [r s1] eqn:GV. destruct (get_base s c t r s1 W OC GV) as [B CL].
  eexists r, _. split; [reflexivity|].
  assert (Ll : live s l) by (apply (SO l eq_refl); constructor).
  apply (finish s c _ r s1 _ B).
  - apply filled_set; auto.
  - apply (SV (hp s) _ l r R); cbn [set_cell hp]; rewrite upd_same; [apply CL|apply CL|].
    cbn [w_sv c_sv]. rewrite (b_frame _ _ _ _ B l Ll). reflexivity.
  - intros y Sy. exfalso. apply (clean_leaf _ _ y CL). cbn [set_cell hp] in Sy. rewrite upd_same in Sy. exact Sy.
  - apply bush_leaf. intros y Sy. apply (clean_leaf _ _ y CL). cbn [set_cell hp] in Sy. rewrite upd_same in Sy. exact Sy.
Qed.
Lemma clones_text v t : (forall h p, rep h p v -> exists l, p = Some l /\ c_dt (h l) = t) ->
  t = TString \/ t = TRaw ->
  (forall h h' l l', rep h (Some l) v -> c_dt (h' l') = t -> c_str (h' l') = c_str (h l) -> rep h' (Some l') (strip v)) ->
  clones v.
Proof.
  intros T C SV. exists 1%nat. intros fuel s p c Fu W OC SO R. destruct fuel as [|f]; [lia|].
  destruct (T _ _ R) as (l & -> & D). rewrite clone_eq. cbv zeta. rewrite D.
  assert (B1 : (vt_code TTrue <=? vt_code t) = false) by (destruct C as [->| ->]; reflexivity). rewrite B1.
  assert (B2 : (vt_code TInt <=? vt_code t) && (vt_code t <=? vt_code TDateTime) = false) by (destruct C as [->| ->]; reflexivity). rewrite B2.
  destruct (getValue G s c t) as [r s1] eqn:GV. destruct (get_base s c t r s1 W OC GV) as [B CL].
  exists r, (set_cell s1 r (w_str (hp s1 r) (c_str (hp s1 l)))). split; [destruct C as [->| ->]; reflexivity|].
  assert (Ll : live s l) by (apply (SO l eq_refl); constructor).
  apply (finish s c _ r s1 _ B).
  - apply filled_set; auto.
  - apply (SV (hp s) _ l r R); cbn [set_cell hp]; rewrite upd_same; [apply CL|].
    cbn [w_str c_str]. rewrite (b_frame _ _ _ _ B l Ll). reflexivity.
  - intros y Sy. exfalso. apply (clean_leaf _ _ y CL). cbn [set_cell hp] in Sy. rewrite upd_same in Sy. exact Sy.
  - apply bush_leaf. intros y Sy. apply (clean_leaf _ _ y CL). cbn [set_cell hp] in Sy. rewrite upd_same in Sy. exact Sy.
Qed.

Lemma base_src s c r s1 l : base s c r s1 -> cloneable_graph s l ->
  (forall x, reach (hp s) l x -> hp s1 x = hp s x) /\ cloneable_graph s1 l /\ ~ reach (hp s1) l r.
Proof.
  intros B CG. assert (Q : forall x, reach (hp s) l x -> hp s1 x = hp s x).
  { intros x X. apply (b_frame _ _ _ _ B), CG; auto. }
  split; [exact Q|]. split.
  - intros x X. apply (reach_same _ _ _ Q) in X. rewrite (Q x X). destruct (CG x X). split; [apply (b_lives _ _ _ _ B)|]; auto.
  - intros X. apply (reach_same _ _ _ Q) in X. apply (b_new _ _ _ _ B), CG; auto.
Qed.
Lemma graph_child s l y : cloneable_graph s l -> sees (hp s l) y -> cloneable_graph s y.
Proof. intros C S x X. apply C. eapply reach_trans; [apply reach_child; exact S|exact X]. Qed.

Theorem clones_all v : clonable v -> clones v.
Proof.
  induction v using value_ind'; intros CB; try (destruct CB; fail).
  - apply clonable_obj in CB.
    assert (FA : Forall (fun kv => clones (snd kv)) kvs).
    { rewrite Forall_forall in *. auto. }
    destruct (clones_kvs kvs FA) as [n0 HK]. exists (S n0). intros fuel s p c Fu W OC SO R.
    destruct fuel as [|f]; [lia|]. apply rep_obj_inv in R as (l & -> & D & -> & F2).
    rewrite clone_eq. cbv zeta. rewrite D. change (vt_code TTrue <=? vt_code TObject) with false.
    change ((vt_code TInt <=? vt_code TObject) && (vt_code TObject <=? vt_code TDateTime)) with false. cbv iota.
    destruct (getValue G s c TObject) as [r s1] eqn:GV. destruct (get_base s c TObject r s1 W OC GV) as [B CL].
    pose proof (SO l eq_refl) as CG. destruct (base_src s c r s1 l B CG) as (Q & CG1 & NR).
    assert (Ll : live s l) by (apply CG; constructor).
    set (nc := w_obj (hp s1 r) (c_unesc (hp s1 l)) (c_kvs (hp s1 r)) (c_spare (hp s1 r))).
    assert (FS : filled s1 c r (set_cell s1 r nc)).
    { apply filled_set; [|reflexivity]. intros P PC s' A. apply okc_obj_sub; auto. }
    set (s2 := set_cell s1 r nc) in *.
    assert (T1 : tr N N s s1 /\ ok_loc N s1 r) by (apply (b_tr _ _ _ _ B); auto).
    assert (OC1 : ok_cache N s1 c) by (eapply ok_cache_tr; [apply T1|auto]).
    assert (T2 : tr N N s1 s2) by (apply (fl_tr _ _ _ _ FS); [apply T1|auto|apply T1]).
    assert (NE : l <> r) by (intros ->; apply NR; constructor).
    assert (HL : hp s2 l = hp s l).
    { unfold s2. cbn [set_cell hp]. rewrite upd_other by auto. apply Q; constructor. }
    assert (KID : forall kv y, In kv (c_kvs (hp s l)) -> snd kv = Some y -> sees (hp s l) y /\ sees (hp s1 l) y).
    { intros kv y I Y. rewrite (Q l (reach_refl _ _)). unfold sees. rewrite D. split; rewrite <- Y; apply in_map; auto. }
    assert (SA : forall kv v', In kv (c_kvs (hp s l)) -> rep (hp s) (snd kv) v' ->
       src_ok s2 (snd kv) /\ rep (hp s2) (snd kv) v' /\ (forall y, snd kv = Some y -> ~ reach (hp s2) y r)).
    { intros kv v' I RP. apply (src_after s1 c r s2); auto.
      - intros y Y. destruct (KID kv y I Y). eapply graph_child; eauto.
      - intros y Y X. destruct (KID kv y I Y) as [_ S1]. apply NR. eapply reach_trans; [apply reach_child; exact S1|exact X].
      - apply (rep_frame (hp s)); auto. intros x (y & Y & X). destruct (KID kv y I Y) as [S1 _].
        apply Q. eapply reach_trans; [apply reach_child; exact S1|exact X]. }
    destruct (HK f s2 r l O c) as (s' & new & E1 & W' & F & A1 & A2 & A3 & A4 & A5 & A6); try lia; auto.
    + apply T2.
    + apply (fl_lives _ _ _ _ FS), (b_live _ _ _ _ B).
    + apply (b_5 _ _ _ _ B).
    + apply (fl_lives _ _ _ _ FS), (b_lives _ _ _ _ B); auto.
    + rewrite HL. cbn [skipn]. intros kv I.
      assert (RV : exists v', rep (hp s) (snd kv) v').
      { clear - F2 I. induction F2 as [|a b l1 l2 [_ Q] F2' IH]; [destruct I|]. destruct I as [<-|I]; eauto. }
      destruct RV as [v' RV]. destruct (SA kv v' I RV) as (X & _ & Y). auto.
    + rewrite HL. cbn [skipn]. eapply Forall2_impl_in; [exact F2|]. intros a b I [Q1 Q2]. split; [exact Q1|].
      apply (SA a (snd b) I Q2).
    + rewrite E1. cbn [bind]. exists r, s'. split; [reflexivity|].
      assert (HR : hp s2 r = nc) by (unfold s2; cbn [set_cell hp]; apply upd_same).
      assert (KV : c_kvs (hp s' r) = new).
      { rewrite A1, HR. unfold nc. cbn [w_obj c_kvs]. destruct CL as (_ & _ & _ & K0 & _). rewrite K0. reflexivity. }
      assert (DT : c_dt (hp s' r) = TObject) by (rewrite A2, HR; apply CL).
      apply (finish s c _ r s1 s' B).
      * eapply filled_trans; eauto.
      * cbn [strip]. apply rep_obj_intro; auto.
        -- rewrite A3, HR. unfold nc. cbn [w_obj c_unesc]. rewrite (Q l (reach_refl _ _)). reflexivity.
        -- rewrite KV. exact A4.
      * intros y Sy. unfold sees in Sy. rewrite DT, KV in Sy. eapply kid_before; [exact FS|]. apply A5; exact Sy.
      * unfold kid_ptrs. rewrite DT, KV. exact A6.
  - apply clonable_arr in CB.
    assert (FA : Forall clones l).
    { rewrite Forall_forall in *. auto. }
    destruct (clones_arr l FA) as [n0 HK]. exists (S n0). intros fuel s p c Fu W OC SO R.
    destruct fuel as [|f]; [lia|]. apply rep_arr_inv in R as (l0 & -> & D & F2).
    rewrite clone_eq. cbv zeta. rewrite D. change (vt_code TTrue <=? vt_code TArray) with false.
    change ((vt_code TInt <=? vt_code TArray) && (vt_code TArray <=? vt_code TDateTime)) with false. cbv iota.
    destruct (getValue G s c TArray) as [r s1] eqn:GV. destruct (get_base s c TArray r s1 W OC GV) as [B CL].
    pose proof (SO l0 eq_refl) as CG. destruct (base_src s c r s1 l0 B CG) as (Q & CG1 & NR).
    assert (Ll : live s l0) by (apply CG; constructor).
    assert (T1 : tr N N s s1 /\ ok_loc N s1 r) by (apply (b_tr _ _ _ _ B); auto).
    assert (NE : l0 <> r) by (intros ->; apply NR; constructor).
    assert (HL : hp s1 l0 = hp s l0) by (apply Q; constructor).
    assert (KID : forall y, In (Some y) (c_arr (hp s l0)) -> sees (hp s l0) y /\ sees (hp s1 l0) y).
    { intros y I. rewrite HL. unfold sees. rewrite D. auto. }
    destruct (HK f s1 r l0 O c) as (s' & new & E1 & W' & F & A1 & A2 & A3 & A4 & A5 & A6); try lia; auto.
    + apply T1.
    + eapply ok_cache_tr; [apply T1|auto].
    + apply (b_live _ _ _ _ B).
    + apply (b_5 _ _ _ _ B).
    + apply (b_lives _ _ _ _ B); auto.
    + rewrite HL. cbn [skipn]. intros a I. split.
      * intros y ->. destruct (KID y I). eapply graph_child; eauto.
      * intros y -> X. destruct (KID y I) as [_ S1]. apply NR. eapply reach_trans; [apply reach_child; exact S1|exact X].
    + rewrite HL. cbn [skipn]. eapply Forall2_impl_in; [exact F2|]. intros a b I RP.
      apply (rep_frame (hp s)); auto. intros x (y & -> & X). destruct (KID y I) as [S1 _].
      apply Q. eapply reach_trans; [apply reach_child; exact S1|exact X].
    + rewrite E1. cbn [bind]. exists r, s'. split; [reflexivity|].
      assert (KV : c_arr (hp s' r) = new).
      { rewrite A1. destruct CL as (_ & _ & _ & _ & _ & _ & K0). rewrite K0. reflexivity. }
      assert (DT : c_dt (hp s' r) = TArray) by (rewrite A2; apply CL).
      apply (finish s c _ r s1 s' B F).
      * cbn [strip]. apply rep_arr; auto. rewrite KV. exact A4.
      * intros y Sy. unfold sees in Sy. rewrite DT, KV in Sy. apply A5; exact Sy.
      * unfold kid_ptrs. rewrite DT, KV. exact A6.
  - apply clones_text with (t := TString); auto.
    + intros h p R; inversion R; subst; eauto.
    + intros h h' l l' R D Q. inversion R; subst. cbn [strip]. rewrite <- Q. constructor; auto.
  - apply clones_text with (t := TRaw); auto.
    + intros h p R; inversion R; subst; eauto.
    + intros h h' l l' R D Q. inversion R; subst. cbn [strip]. rewrite <- Q. constructor; auto.
  - apply clones_num with (t := TInt); [| |].
    + intros h p R; inversion R; subst; eauto.
    + cbn; lia.
    + intros h h' l l' R D X Q. inversion R; subst. cbn [strip]. rewrite <- Q, <- X. constructor; auto.
  - apply clones_num with (t := TFloat); [| |].
    + intros h p R; inversion R; subst; eauto.
    + cbn; lia.
    + intros h h' l l' R D X Q. inversion R; subst. cbn [strip]. rewrite <- Q. constructor; auto.
  - apply clones_num with (t := TDouble); [| |].
    + intros h p R; inversion R; subst; eauto.
    + cbn; lia.
    + intros h h' l l' R D X Q. inversion R; subst. cbn [strip]. rewrite <- Q. constructor; auto.
  - apply clones_num with (t := TDateTime); [| |].
    + intros h p R; inversion R; subst; eauto.
    + cbn; lia.
    + intros h h' l l' R D X Q. inversion R; subst. cbn [strip]. rewrite <- Q. constructor; auto.
  - exists 1%nat. intros fuel s p c Fu W OC SO R. destruct fuel as [|f]; [lia|]. inversion R; subst.
    match goal with H : c_dt _ = TNull |- _ => rename H into D end.
    rewrite clone_eq. cbv zeta. rewrite D. change (vt_code TTrue <=? vt_code TNull) with false.
    change ((vt_code TInt <=? vt_code TNull) && (vt_code TNull <=? vt_code TDateTime)) with false. cbv iota.
    destruct (getValue G s c TNull) as [r s1] eqn:GV. destruct (get_base s c TNull r s1 W OC GV) as [B CL].
    exists r, s1. split; [reflexivity|]. apply (finish s c _ r s1 s1 B); [apply filled_refl| | |].
    + constructor. apply CL.
    + intros y Sy. exfalso. apply (clean_leaf _ _ y CL Sy).
    + apply bush_leaf. intros y Sy. apply (clean_leaf _ _ y CL Sy).
  - apply clones_const with (t := TTrue); [intros h p R; inversion R; subst; eauto|cbn; lia|reflexivity].
  - apply clones_const with (t := TFalse); [intros h p R; inversion R; subst; eauto|cbn; lia|reflexivity].
  - apply clones_const with (t := TNan); [intros h p R; inversion R; subst; eauto|cbn; lia|reflexivity].
  - apply clones_const with (t := TInf); [intros h p R; inversion R; subst; eauto|cbn; lia|reflexivity].
Qed.

(** ** The invariant around the copy *)
Definition since (a b : nat) (P : nat_set) : nat_set := fun x => P x \/ (a <= x < b)%nat.
Lemma conf_inv P PC s0 s : inv P PC s0 -> wf s -> conf P PC s0 s ->
  inv (since (nx s0) (nx s) P) (since (nc s0) (nc s) PC) s.
Proof.
  intros I W C. constructor; try apply W.
  - intros l NP. destruct (Nat.lt_ge_cases l (nx s)) as [L|L].
    + assert (L0 : (l < nx s0)%nat) by (destruct (Nat.lt_ge_cases l (nx s0)); auto; exfalso; apply NP; right; auto).
      assert (NP0 : ~ P l) by (intros X; apply NP; left; auto).
      rewrite (f_hp _ _ _ _ C l L0 NP0).
      destruct (i_sep _ _ _ I l NP0) as [A B], (i_cell _ _ _ I l L0) as [A' B'].
      split; [intros x X [Y|Y]; [apply (A x X Y)|apply A' in X; lia]|intros x X [Y|Y]; [apply (B x X Y)|apply B' in X; lia]].
    + rewrite (i_fresh _ _ _ W l L). split; [intros x X; destruct (child_zero _ X)|intros k K; discriminate].
  - intros k K. rewrite (f_pl _ _ _ _ C) in K. destruct (i_pool _ _ _ I k K) as [A B].
    split; [pose proof (f_nc _ _ _ _ C); lia|]. intros [X|X]; [auto|lia].
  - intros l [X|X]; [pose proof (i_P _ _ _ I l X); pose proof (f_nx _ _ _ _ C); lia|].
    pose proof (i_nx _ _ _ I). lia.
  - intros k [X|X]; [pose proof (i_PC _ _ _ I k X); pose proof (f_nc _ _ _ _ C); lia|lia].
  - intros k l K NP X.
    assert (K0 : (k < nc s0)%nat) by (destruct (Nat.lt_ge_cases k (nc s0)); auto; exfalso; apply NP; right; auto).
    assert (NP0 : ~ PC k) by (intros Y; apply NP; left; auto).
    rewrite (f_cs _ _ _ _ C k K0 NP0) in X. intros [Y|Y]; [apply (i_slots _ _ _ I k l K0 NP0 X Y)|].
    destruct (i_cache _ _ _ I k K0) as (_ & _ & _ & F). rewrite Forall_forall in F. apply F in X. lia.
Qed.
Lemma conf_refl (P PC : nat_set) s : (forall k x, PC k -> In x (ca_slots (cs s k)) -> P x) -> conf P PC s s.
Proof.
  intros H. constructor; auto. intros k x [M|M] K X; [left; eapply H; eauto|lia].
Qed.

End CloneProof.

Section Independent.
Variable E : env.
Variable G : nat -> nat.
Notation N := none_set.

(** Whatever is done to values outside a protected set leaves a value inside it unchanged. *)
Lemma protected_value P PC s l v os s' : inv P PC s -> (forall x, reach (hp s) l x -> (x < 5)%nat \/ P x) ->
  rep (hp s) (Some l) v -> runs E G P s os s' -> rep (hp s') (Some l) v.
Proof.
  intros I C R H. destruct (tr_runs P PC E G s os s' I H) as [I' (_ & _ & K & _)].
  apply (rep_same (hp s)); auto. intros x (m & Q & X). injection Q as <-. destruct (C x X) as [L|L]; [right|left; auto].
  rewrite (i_const _ _ _ I x L), (i_const _ _ _ I' x L). split; [auto|]. destruct x as [|[|[|[|x]]]]; cbn; lia.
Qed.

Definition cache_of (s : st) (uc : option (option nat)) : option nat * st :=
  match uc with None => (None, s) | Some ch => (Some (fst (getCache s ch)), snd (getCache s ch)) end.
Lemma Clone_eq fuel s p uc : Clone G fuel s p uc = clone G fuel (snd (cache_of s uc)) p (fst (cache_of s uc)).
Proof. unfold Clone, cache_of. destruct uc as [ch|]; [|reflexivity]. destruct (getCache s ch); reflexivity. Qed.
Lemma cache_of_same s uc : wf s -> hp (snd (cache_of s uc)) = hp s /\ (forall x, live s x -> live (snd (cache_of s uc)) x) /\
  (forall x, live (snd (cache_of s uc)) x -> (x < nx s)%nat -> live s x) /\
  wf (snd (cache_of s uc)) /\ ok_cache N (snd (cache_of s uc)) (fst (cache_of s uc)).
Proof.
  intros W. destruct uc as [ch|]; [|cbn [cache_of fst snd]; split; [auto|split; [auto|split; [auto|split; [auto|intros k K; discriminate]]]]].
  cbn [cache_of fst snd]. pose proof (tr_getCache N N s ch W) as T.
  assert (T' : wf (snd (getCache s ch)) /\ ok_cache N (snd (getCache s ch)) (Some (fst (getCache s ch)))) by (split; apply T).
  destruct T' as [T1 T2]. split; [|split; [|split; [|split; [exact T1|exact T2]]]].
  - unfold getCache. destruct ch as [i|]; [destruct (nth_error (pl s) i)|]; reflexivity.
  - assert (FR : forall x s2, live s x -> nc s2 = S (nc s) -> (nx s <= nx s2)%nat ->
       cs s2 = upd (cs s) (nc s) (mkCache true (seq (nx s) 8) 0) -> live s2 x).
    { intros x s2 [L1 L2] A B C. split; [lia|]. rewrite A, C. intros k K. destruct (Nat.eq_dec k (nc s)) as [->|Q].
      - rewrite upd_same. cbn [ca_len ca_slots skipn]. intros X. apply In_seq_ge in X. lia.
      - rewrite upd_other by auto. apply L2. lia. }
    intros x L. unfold getCache. destruct ch as [i|]; [destruct (nth_error (pl s) i) as [k|] eqn:NT|]; cbn [snd];
      try (apply (FR x _ L); cbn [nc nx cs]; auto; lia).
    destruct L as [L1 L2]. split; cbn [nx nc cs]; [auto|]. intros k' K'. destruct (Nat.eq_dec k' k) as [->|Q].
    + rewrite upd_same. cbn [ca_len ca_slots]. apply L2; auto.
    + rewrite upd_other by auto. apply L2; auto.
  - assert (FR : forall x s2, live s2 x -> (x < nx s)%nat -> nc s2 = S (nc s) ->
       cs s2 = upd (cs s) (nc s) (mkCache true (seq (nx s) 8) 0) -> live s x).
    { intros x s2 [L1 L2] A B C. split; [lia|]. rewrite B, C in L2. intros k K.
      specialize (L2 k). rewrite upd_other in L2 by lia. apply L2. lia. }
    intros x L LX. unfold getCache in L. destruct ch as [i|]; [destruct (nth_error (pl s) i) as [k|] eqn:NT|]; cbn [snd] in L;
      try (apply (FR x _ L); cbn [nc nx cs]; auto; lia).
    destruct L as [L1 L2]. split; [auto|]. intros k' K'. cbn [nx nc cs] in L2. specialize (L2 k' K').
    destruct (Nat.eq_dec k' k) as [->|Q].
    + rewrite upd_same in L2. exact L2.
    + rewrite upd_other in L2 by auto. exact L2.
Qed.

(** The copy has the content of the original and shares no cell in use with it. *)
Theorem clone_content s l v uc : wf s -> cloneable_graph s l -> rep (hp s) (Some l) v -> clonable v ->
  exists n0, forall fuel, (n0 <= fuel)%nat -> exists r s', Clone G fuel s (Some l) uc = Ok (r, s') /\
    rep (hp s') (Some r) (strip v) /\
    (forall x, live s x -> hp s' x = hp s x /\ live s' x) /\
    (forall x, reach (hp s') r x -> (x < 5)%nat \/ ((5 <= x)%nat /\ ~ live s x /\ live s' x)) /\ treelike (hp s') r.
Proof.
  intros W CG R CB. destruct (cache_of_same s uc W) as (HP & LV & LV' & W1 & OC).
  destruct (clones_all G v CB) as [n0 H]. exists n0. intros fuel Fu. rewrite Clone_eq.
  destruct (H fuel (snd (cache_of s uc)) (Some l) (fst (cache_of s uc)) Fu W1 OC) as (r & s' & A & B).
  - intros m Q x X. injection Q as <-. rewrite HP in *. destruct (CG x X). auto.
  - rewrite HP. exact R.
  - exists r, s'. split; [exact A|]. split; [apply (k_rep _ _ _ _ _ B)|]. split.
    + intros x L. rewrite (k_frame _ _ _ _ _ B) by auto. rewrite HP. split; [auto|apply (k_lives _ _ _ _ _ B); auto].
    + split; [|apply (k_tree _ _ _ _ _ B)]. intros x X. destruct (k_new _ _ _ _ _ B x X) as [L|(L1 & L2 & L3)]; auto.
      right. split; [auto|split; [|auto]]. intros L. apply L2, LV, L.
Qed.

(** The original: while it lies in a part that nothing outside refers to, no call on values outside
    that part - all cells of the copy are outside - changes it. *)
Theorem clone_leaves_original P PC s l v uc : inv P PC s -> cloneable_graph s l -> rep (hp s) (Some l) v -> clonable v ->
  (forall x, reach (hp s) l x -> (x < 5)%nat \/ P x) ->
  exists n0, forall fuel, (n0 <= fuel)%nat -> exists r s', Clone G fuel s (Some l) uc = Ok (r, s') /\
    (forall x, reach (hp s') r x -> (x < nx s')%nat /\ ~ P x) /\
    forall os s'', runs E G P s' os s'' -> rep (hp s'') (Some l) v.
Proof.
  intros I CG R CB CL. pose proof (inv_wf _ _ _ I) as W. destruct (cache_of_same s uc W) as (HP & LV & LV' & W1 & OC).
  destruct (clones_all G v CB) as [n0 H]. exists n0. intros fuel Fu. rewrite Clone_eq.
  destruct (H fuel (snd (cache_of s uc)) (Some l) (fst (cache_of s uc)) Fu W1 OC) as (r & s' & A & B).
  - intros m Q x X. injection Q as <-. rewrite HP in *. destruct (CG x X). auto.
  - rewrite HP. exact R.
  - exists r, s'. split; [exact A|].
    assert (T0 : tr P PC s (snd (cache_of s uc)) /\ ok_cache PC (snd (cache_of s uc)) (fst (cache_of s uc))).
    { destruct uc as [ch|]; [apply (tr_getCache P PC s ch I)|]. split; [apply tr_refl; auto|intros k K; discriminate]. }
    destruct (k_tr _ _ _ _ _ B P PC (proj1 (proj1 T0)) (proj2 T0)) as [T1 OK]. split; [exact OK|].
    intros os s'' RU.
    assert (FR : forall x, reach (hp s) l x -> hp s' x = hp s x).
    { intros x X. rewrite (k_frame _ _ _ _ _ B); [rewrite HP; auto|]. apply LV, CG, X. }
    apply (protected_value P PC s' l v os s''); auto.
    + apply T1.
    + intros x X. apply (reach_same _ _ _ FR) in X. auto.
    + apply (rep_frame (hp s)); auto. intros x (m & Q & X). injection Q as <-. auto.
Qed.

(** The copy, made without a cache or in a new one: it lives in cells and caches made by the call,
    and no later call on values outside them changes it. *)
Definition made (a b : nat) : nat_set := fun x => (a <= x < b)%nat.
Lemma inv_ext P PC P' PC' s : (forall x, P x <-> P' x) -> (forall k, PC k <-> PC' k) -> inv P PC s -> inv P' PC' s.
Proof.
  intros QP QC [A B C D F H I J K L M]. constructor; auto.
  - intros l X. rewrite <- QP in X. destruct (F l X) as [F1 F2].
    split; [intros x Y; rewrite <- QP; auto|intros k Y; rewrite <- QC; auto].
  - intros k X. rewrite <- QC. auto.
  - intros l X. apply K, QP, X.
  - intros k X. apply L, QC, X.
  - intros k x X Y Z. rewrite <- QC in Y. rewrite <- QP. eauto.
Qed.
Theorem clone_is_confined s l v uc : wf s -> cloneable_graph s l -> rep (hp s) (Some l) v -> clonable v ->
  (uc = None \/ uc = Some None) ->
  exists n0, forall fuel, (n0 <= fuel)%nat -> exists r s', Clone G fuel s (Some l) uc = Ok (r, s') /\
    inv (made (nx s) (nx s')) (made (nc s) (nc s')) s' /\
    (forall x, reach (hp s') r x -> (x < 5)%nat \/ made (nx s) (nx s') x) /\
    forall os s'', runs E G (made (nx s) (nx s')) s' os s'' -> rep (hp s'') (Some r) (strip v).
Proof.
  intros W CG R CB UC. destruct (cache_of_same s uc W) as (HP & LV & LV' & W1 & OC).
  destruct (clones_all G v CB) as [n0 H]. exists n0. intros fuel Fu. rewrite Clone_eq.
  destruct (H fuel (snd (cache_of s uc)) (Some l) (fst (cache_of s uc)) Fu W1 OC) as (r & s' & A & B).
  - intros m Q x X. injection Q as <-. rewrite HP in *. destruct (CG x X). auto.
  - rewrite HP. exact R.
  - exists r, s'. split; [exact A|].
    assert (C0 : conf N N s (snd (cache_of s uc)) /\ from_ok N s (fst (cache_of s uc))).
    { destruct UC as [->| ->]; cbn [cache_of getCache fst snd].
      - split; [apply (conf_refl G); intros k x []|intros k K; discriminate].
      - split; [|intros k K; injection K as <-; right; lia].
        constructor; cbn [hp nx cs nc pl]; auto; try lia.
        + intros k K _. apply upd_other. lia.
        + intros k x [[]|M] K X. assert (k = nc s) by lia. subst. rewrite upd_same in X. cbn [ca_slots] in X. apply In_seq_ge in X. right; lia. }
    destruct (k_conf _ _ _ _ _ B N N s (proj1 C0) (proj2 C0)) as [C1 CL].
    assert (W' : wf s') by (apply (k_tr _ _ _ _ _ B N N W1 OC)).
    assert (IV : inv (made (nx s) (nx s')) (made (nc s) (nc s')) s').
    { apply (inv_ext (since (nx s) (nx s') N) (since (nc s) (nc s') N)).
      - intros x. unfold since, made, none_set. tauto.
      - intros x. unfold since, made, none_set. tauto.
      - apply conf_inv; auto. }
    assert (IN : forall x, reach (hp s') r x -> (x < 5)%nat \/ made (nx s) (nx s') x).
    { intros x X. destruct (CL x X) as [Q|[[]|Q]]; auto. right. split; [auto|].
      destruct (k_new _ _ _ _ _ B x X) as [L|(_ & _ & L)]; [pose proof (i_nx _ _ _ W'); lia|apply L]. }
    split; [exact IV|]. split; [exact IN|]. intros os s'' RU.
    eapply (protected_value _ _ s' r (strip v) os s'' IV); eauto. apply (k_rep _ _ _ _ _ B).
Qed.
(** The copy made in a recycled cache: the same, provided nothing outside a set [P] refers into the
    recycled cells. *)
Theorem clone_pooled_confined P PC s l v i : let s1 := snd (getCache s (Some i)) in
  wf s -> inv P PC s1 -> PC (fst (getCache s (Some i))) -> (forall k x, PC k -> In x (ca_slots (cs s1 k)) -> P x) ->
  cloneable_graph s l -> rep (hp s) (Some l) v -> clonable v ->
  exists n0, forall fuel, (n0 <= fuel)%nat -> exists r s', Clone G fuel s (Some l) (Some (Some i)) = Ok (r, s') /\
    (forall x, reach (hp s') r x -> (x < 5)%nat \/ since (nx s1) (nx s') P x) /\
    forall os s'', runs E G (since (nx s1) (nx s') P) s' os s'' -> rep (hp s'') (Some r) (strip v).
Proof.
  intros s1 W I PK SL CG R CB. destruct (cache_of_same s (Some (Some i)) W) as (HP & LV & LV' & W1 & OC).
  destruct (clones_all G v CB) as [n0 H]. exists n0. intros fuel Fu. rewrite Clone_eq.
  destruct (H fuel (snd (cache_of s (Some (Some i)))) (Some l) (fst (cache_of s (Some (Some i)))) Fu W1 OC) as (r & s' & A & B).
  - intros m Q x X. injection Q as <-. rewrite HP in *. destruct (CG x X). auto.
  - rewrite HP. exact R.
  - exists r, s'. split; [exact A|]. change (snd (cache_of s (Some (Some i)))) with s1 in *.
    assert (C0 : conf P PC s1 s1) by (apply (conf_refl G); auto).
    destruct (k_conf _ _ _ _ _ B P PC s1 C0) as [C1 CL].
    { intros k K. injection K as <-. left. exact PK. }
    assert (W' : wf s') by (apply (k_tr _ _ _ _ _ B N N W1 OC)).
    pose proof (conf_inv G P PC s1 s' I W' C1) as IV.
    assert (IN : forall x, reach (hp s') r x -> (x < 5)%nat \/ since (nx s1) (nx s') P x).
    { intros x X. destruct (CL x X) as [Q|[Q|Q]]; [auto|right; left; auto|]. right; right. split; [auto|].
      destruct (k_new _ _ _ _ _ B x X) as [L|(_ & _ & L)]; [pose proof (i_nx _ _ _ W'); lia|apply L]. }
    split; [exact IN|]. intros os s'' RU.
    eapply (protected_value _ _ s' r (strip v) os s'' IV); eauto. apply (k_rep _ _ _ _ _ B).
Qed.
End Independent.
