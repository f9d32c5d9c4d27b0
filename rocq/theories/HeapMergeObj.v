(** [MergeWith] on objects, with and without a callback. *)
From Verif Require Import Base Values Tactics HeapModel HeapSpec HeapBase HeapConf HeapGet ApiSpec HeapMap HeapCalls
  HeapObj HeapForce HeapClone HeapEqual HeapMono HeapMerge.

(** ** Specification: the union of two maps *)
Section Union.
Variable same : bytes -> bytes -> bool.
Fixpoint pick {A} (k : bytes) (w : list (bytes * A)) : option A :=
  match w with
  | [] => None
  | kv :: r => if same k (fst kv) then Some (snd kv) else pick k r
  end.
(** The entries of [v], each combined with the entry of [w] of the same key into a two-element array;
    then the entries of [w] with a key that [v] lacks.  Copies drop integer extension types. *)
Definition union (v w : list (bytes * value)) : list (bytes * value) :=
  map (fun kv => (fst kv, match pick (fst kv) w with
                          | Some y => VArray [strip (snd kv); strip y] | None => snd kv end)) v ++
  map (fun kv => (fst kv, strip (snd kv)))
    (filter (fun kv => negb (existsb (fun kv' => same (fst kv') (fst kv)) v)) w).
(** The same with a verdict for every entry of [w]: combine, replace, or leave alone. *)
Definition joined (old : value) (new : value * merge_op) : value :=
  match snd new with
  | MO_Normal => VArray [strip old; strip (fst new)]
  | MO_Replace => strip (fst new)
  | MO_Custom => old
  end.
Definition union_by (v : list (bytes * value)) (w : list (bytes * (value * merge_op))) : list (bytes * value) :=
  map (fun kv => (fst kv, match pick (fst kv) w with Some y => joined (snd kv) y | None => snd kv end)) v ++
  map (fun kv => (fst kv, strip (fst (snd kv))))
    (filter (fun kv => negb (existsb (fun kv' => same (fst kv') (fst kv)) v)) w).
Definition all_normal (w : list (bytes * value)) : list (bytes * (value * merge_op)) :=
  map (fun kv => (fst kv, (snd kv, MO_Normal))) w.
Lemma union_is_union_by v w : union v w = union_by v (all_normal w).
Proof.
  unfold union, union_by, all_normal. f_equal.
  - apply map_ext. intros kv. f_equal.
    assert (P : pick (fst kv) (map (fun kv => (fst kv, (snd kv, MO_Normal))) w) =
      match pick (fst kv) w with Some y => Some (y, MO_Normal) | None => None end).
    { induction w as [|x w IH]; cbn [map pick fst snd]; auto. destruct (same (fst kv) (fst x)); auto. }
    rewrite P. destruct (pick (fst kv) w); reflexivity.
  - induction w as [|x w IH]; cbn [map filter fst]; auto. destruct (negb _); cbn [map fst snd]; rewrite IH; reflexivity.
Qed.
End Union.

Section Obj.
Variable E : env.
Variable G : nat -> nat.
Hypothesis EO : env_ok E.
Notation N := none_set.
Notation same := (key_match E).
Notation pairs := (pairs E).

(** ** Adding the pairs of [w] one by one gives the union *)
Definition step (cv : list (bytes * value)) (kw : bytes * (value * merge_op)) : list (bytes * value) :=
  match find_key E cv (fst kw) with
  | Some i => match nth_error cv i with
              | Some (_, old) => set_val i (joined old (snd kw)) cv | None => cv end
  | None => cv ++ [(fst kw, strip (fst (snd kw)))]
  end.

Lemma pick_none {A} k (w : list (bytes * A)) : (forall kv, In kv w -> same k (fst kv) = false) -> pick same k w = None.
Proof. induction w as [|kv w IH]; intros H; cbn [pick]; auto. rewrite (H kv) by (left; auto). apply IH. intros; apply H; right; auto. Qed.
Lemma nth_set_val {A} i (x : A) m j : nth_error (set_val i x m) j =
  if (j =? i)%nat then match nth_error m i with Some (k, _) => Some (k, x) | None => None end else nth_error m j.
Proof.
  unfold set_val. destruct (nth_error m i) as [[k y]|] eqn:Q.
  - revert i j Q. induction m as [|z m IH]; intros [|i] [|j] Q; cbn [nth_error set_nth Nat.eqb] in *; try discriminate; auto.
  - destruct (Nat.eqb_spec j i) as [->|]; auto.
Qed.
Lemma distinct_step cv kw : distinct_keys same cv -> distinct_keys same (step cv kw).
Proof.
  intros D. unfold step. destruct (find_key E cv (fst kw)) as [i|] eqn:F.
  - destruct (nth_error cv i) as [[k old]|] eqn:Q; auto.
    unfold distinct_keys in *.
    assert (X : forall (a b : list (bytes * value)), map fst a = map fst b ->
      ForallOrdPairs (fun a b => same (fst a) (fst b) = false) a -> ForallOrdPairs (fun a b => same (fst a) (fst b) = false) b).
    { induction a as [|x a IH]; intros [|y b] M FA; try discriminate; [constructor|]. cbn [map] in M. injection M as M1 M2.
      inversion FA as [|? ? H1 H2]; subst. constructor; [|apply IH; auto]. rewrite <- M1.
      clear - M2 H1. revert b M2. induction a as [|z a IH]; intros [|t b] M2; try discriminate; constructor;
        cbn [map] in M2; injection M2 as M3 M4; inversion H1; subst; [rewrite <- M3; auto|apply IH; auto]. }
    eapply X; [|exact D]. symmetry. apply map_fst_set_val.
  - unfold distinct_keys in *. induction D as [|x a H D IH]; cbn [app]; constructor; try constructor.
    + rewrite Forall_forall in *. intros y I. apply in_app_or in I as [I|[<-|[]]]; auto. cbn [fst].
      apply (find_key_none E) with (k := fst x) (x := snd x) in F; auto. left. destruct x; reflexivity.
    + apply IH. cbn [find_key] in F. destruct x as [kx xx]. destruct (same kx (fst kw)); [discriminate|]. destruct (find_key E a (fst kw)); [discriminate|auto].
Qed.
Lemma existsb_ext {A} (f g : A -> bool) l : (forall x, In x l -> f x = g x) -> existsb f l = existsb g l.
Proof. induction l as [|x l IH]; intros H; cbn; auto. rewrite H by (left; auto). rewrite IH; auto. intros; apply H; right; auto. Qed.
Lemma filter_ext_in' {A} (f g : A -> bool) l : (forall x, In x l -> f x = g x) -> filter f l = filter g l.
Proof. induction l as [|x l IH]; intros H; cbn; auto. rewrite H by (left; auto). rewrite IH; auto. intros; apply H; right; auto. Qed.

Lemma union_step v kw w : distinct_keys same v -> (forall kv, In kv w -> same (fst kw) (fst kv) = false) ->
  union_by same (step v kw) w = union_by same v (kw :: w).
Proof.
  intros D NW. unfold step. destruct (find_key E v (fst kw)) as [i|] eqn:F.
  - pose proof F as F0. apply (find_key_some E) in F as (k0 & old & Q & SM). rewrite Q.
    assert (NP : pick same k0 w = None).
    { apply pick_none. intros kv I. rewrite (same_cong E EO _ _ (fst kv) SM). auto. }
    unfold union_by. f_equal.
    + apply (nth_ext _ _ ([], VNilP) ([], VNilP)).
      * rewrite !map_length. pose proof (map_fst_set_val i (joined old (snd kw)) v) as M.
        apply (f_equal (@List.length _)) in M. rewrite !map_length in M. exact M.
      * intros j Lj. rewrite map_length in Lj.
        assert (OPT : forall (f : bytes * value -> bytes * value) l, nth j (map f l) ([], VNilP) =
          match nth_error l j with Some x => f x | None => ([], VNilP) end).
        { intros f l. clear. revert j. induction l as [|x l IH]; intros [|j]; cbn [map nth nth_error]; auto. }
        rewrite !OPT, nth_set_val. destruct (Nat.eqb_spec j i) as [->|NE].
        -- rewrite Q. cbn [fst snd pick]. rewrite NP, SM. reflexivity.
        -- destruct (nth_error v j) as [[k x]|] eqn:Qj; auto. cbn [fst snd pick].
           destruct (same k (fst kw)) eqn:SK; auto. exfalso. apply NE.
           pose proof (find_key_uniq E EO v (fst kw) j k x D Qj SK). congruence.
    + f_equal. cbn [filter].
      assert (EX : existsb (fun kv' => same (fst kv') (fst kw)) v = true).
      { apply existsb_exists. exists (k0, old). split; [eapply nth_error_In; eauto|exact SM]. }
      rewrite EX. cbn [negb]. apply filter_ext_in'. intros kv I. f_equal.
      pose proof (existsb_fst E (set_val i (joined old (snd kw)) v) (fst kv)) as X1.
      pose proof (existsb_fst E v (fst kv)) as X2. rewrite map_fst_set_val in X1.
      assert (MM : forall (l : list (bytes * value)) n, existsb (fun kv' => same (fst kv') n) l = existsb (fun k' => same k' n) (map fst l)).
      { intros l n. clear. induction l; cbn; congruence. }
      rewrite !MM, map_fst_set_val. reflexivity.
  - unfold union_by. rewrite map_app. cbn [map fst snd].
    assert (NV : forall kv, In kv v -> same (fst kv) (fst kw) = false).
    { intros [k x] I. exact (find_key_none E v (fst kw) F k x I). }
    rewrite (pick_none (fst kw) w NW). rewrite <- app_assoc. f_equal.
    + apply map_ext_in. intros kv I. cbn [pick]. rewrite (NV kv I). reflexivity.
    + cbn [app filter]. replace (existsb (fun kv' => same (fst kv') (fst kw)) v) with false.
      2:{ symmetry. apply not_true_is_false. intros X. apply existsb_exists in X as (kv & I & S0). rewrite (NV kv I) in S0. discriminate. }
      cbn [negb map fst snd]. f_equal. f_equal. apply filter_ext_in'. intros kv I. f_equal. rewrite existsb_app. cbn [existsb fst].
      rewrite (NW kv I). rewrite !orb_false_r. reflexivity.
Qed.
Lemma fold_union w : forall v, distinct_keys same v -> distinct_keys same w -> fold_left step w v = union_by same v w.
Proof.
  induction w as [|kw w IH]; intros v D DW; cbn [fold_left].
  - unfold union_by. cbn [filter map]. rewrite app_nil_r. rewrite <- (map_id v) at 1. apply map_ext. intros [k x]. reflexivity.
  - inversion DW as [|? ? H1 H2]; subst. rewrite IH; auto.
    + apply union_step; auto. rewrite Forall_forall in H1. auto.
    + apply distinct_step; auto.
Qed.

(** ** State between two iterations *)
Definition entries (s : st) (l : nat) : list ptr := map snd (c_kvs (hp s l)).
Lemma entries_pairs s l : map snd (pairs s l) = entries s l.
Proof. unfold HeapCalls.pairs, entries. apply snd_unescape_keys. Qed.
Definition apart (s : st) (p q : ptr) : Prop := forall x, preach (hp s) p x -> preach (hp s) q x -> (x < 5)%nat.
Definition listed (h : nat -> cell) (ps : list (bytes * ptr)) (cv : list (bytes * value)) : Prop :=
  List.length ps = List.length cv /\
  forall j a b, nth_error ps j = Some a -> nth_error cv j = Some b -> fst a = fst b /\ rep h (snd a) (snd b).
Record minv (s : st) (l m : nat) (cv : list (bytes * value)) : Prop := {
  mi_good : good_obj s l;
  mi_dist : distinct_keys same (pairs s l);
  mi_rep : listed (hp s) (pairs s l) cv;
  mi_live : forall p, In p (entries s l) -> plive s p;
  mi_self : forall p, In p (entries s l) -> ~ preach (hp s) p l;
  mi_sep : forall i j p q, i <> j -> nth_error (entries s l) i = Some p -> nth_error (entries s l) j = Some q -> apart s p q;
  mi_m : m <> l /\ live s m /\ (5 <= m)%nat;
  mi_src : forall p, In p (entries s m) -> src_ok s p /\ ~ preach (hp s) p l /\ forall q, In q (entries s l) -> apart s p q;
  mi_notm : forall q, In q (entries s l) -> ~ preach (hp s) q m }.

Lemma preach_self h r : preach h (Some r) r. Proof. exists r. split; [auto|constructor]. Qed.
Lemma preach_frame h h' p : (forall x, preach h p x -> h' x = h x) -> forall x, preach h' p x <-> preach h p x.
Proof.
  intros F x. unfold preach in *. split; intros (r & -> & R); exists r; (split; [reflexivity|]);
    (assert (RS : forall y, reach h' r y <-> reach h r y) by (apply reach_same; intros y Y; apply F; exists r; auto)); apply RS; exact R.
Qed.

Section Step.
Variables (s s' : st) (l m jx : nat) (cv : list (bytes * value)) (T : option nat).
Hypothesis MI : minv s l m cv.
Hypothesis W' : wf s'.
Hypothesis LV : forall x, live s x -> live s' x.
Hypothesis FR : forall x, live s x -> x <> l -> T <> Some x -> hp s' x = hp s x.
Hypothesis TJ : forall o, T = Some o -> (5 <= o)%nat /\ nth_error (entries s l) jx = Some (Some o).

Lemma old_frame j p : j <> jx -> nth_error (entries s l) j = Some p -> forall x, preach (hp s) p x -> hp s' x = hp s x.
Proof.
  intros NJ Q x X. assert (I : In p (entries s l)) by (eapply nth_error_In; eauto). apply FR.
  - apply (mi_live _ _ _ _ MI p I x X).
  - intros ->. apply (mi_self _ _ _ _ MI p I X).
  - intros TX. destruct (TJ x TX) as [L5 QX].
    pose proof (mi_sep _ _ _ _ MI j jx p (Some x) NJ Q QX x X (preach_self _ x)). lia.
Qed.
Lemma src_frame p : In p (entries s m) -> forall x, preach (hp s) p x -> hp s' x = hp s x.
Proof.
  intros I x X. destruct (mi_src _ _ _ _ MI p I) as (S0 & NL & AP). apply FR.
  - apply (src_plive s p S0 x X).
  - intros ->. auto.
  - intros TX. destruct (TJ x TX) as [L5 QX].
    pose proof (AP (Some x) (nth_error_In _ _ QX) x X (preach_self _ x)). lia.
Qed.
Lemma m_frame : hp s' m = hp s m.
Proof.
  destruct (mi_m _ _ _ _ MI) as (NE & LM & M5). apply FR; auto. intros TX. destruct (TJ m TX) as [L5 QX].
  apply (mi_notm _ _ _ _ MI (Some m) (nth_error_In _ _ QX)). apply preach_self.
Qed.

Variables (r : nat) (cv' : list (bytes * value)).
Hypothesis DT : c_dt (hp s' l) = TObject.
Hypothesis DK : distinct_keys same (pairs s' l).
Hypothesis OLD : forall j p, j <> jx -> nth_error (entries s' l) j = Some p -> nth_error (entries s l) j = Some p.
Hypothesis NEW : nth_error (entries s' l) jx = Some (Some r).
Hypothesis GR : forall x, reach (hp s') r x -> (x < 5)%nat \/ ((5 <= x)%nat /\ ~ live s x /\ live s' x) \/ T = Some x.
Hypothesis LEN : List.length (pairs s' l) = List.length cv'.
Hypothesis RN : forall j a b, nth_error (pairs s' l) j = Some a -> nth_error cv' j = Some b -> fst a = fst b /\
  (j = jx -> rep (hp s') (snd a) (snd b)) /\ (j <> jx -> rep (hp s) (snd a) (snd b)).

Lemma nth_entries t j a : nth_error (pairs t l) j = Some a -> nth_error (entries t l) j = Some (snd a).
Proof. intros Q. rewrite <- entries_pairs, nth_error_map, Q. reflexivity. Qed.
Lemma entry_cases p : In p (entries s' l) -> p = Some r \/ exists j, j <> jx /\ nth_error (entries s l) j = Some p.
Proof.
  intros I. apply In_nth_error in I as (j & Q). destruct (Nat.eq_dec j jx) as [->|NE]; [left; congruence|right; eauto].
Qed.
Lemma l_live : live s l. Proof. apply (mi_good _ _ _ _ MI). Qed.
Lemma l_5 : (5 <= l)%nat.
Proof. destruct (mi_good _ _ _ _ MI) as (W & _ & D & _). apply (good_5 s l W); auto. Qed.
Lemma live_m : live s m. Proof. apply (mi_m _ _ _ _ MI). Qed.
Lemma not_T_l : T <> Some l.
Proof. intros TX. destruct (TJ l TX) as [_ Q]. apply (mi_self _ _ _ _ MI (Some l) (nth_error_In _ _ Q)). apply preach_self. Qed.
Lemma r_not x : live s x -> (5 <= x)%nat -> T <> Some x -> ~ preach (hp s') (Some r) x.
Proof. intros L L5 NT (y & Q & X). injection Q as <-. destruct (GR x X) as [A|[(_ & A & _)|A]]; [lia|auto|auto]. Qed.

Lemma minv_step : minv s' l m cv'.
Proof.
  pose proof l_live as Ll. pose proof l_5 as L5.
  assert (OP : forall j p, j <> jx -> nth_error (entries s l) j = Some p -> forall x, preach (hp s') p x <-> preach (hp s) p x).
  { intros j p NJ Q. apply preach_frame. eapply old_frame; eauto. }
  assert (SP : forall p, In p (entries s m) -> forall x, preach (hp s') p x <-> preach (hp s) p x).
  { intros p I. apply preach_frame. apply src_frame; auto. }
  assert (EM : entries s' m = entries s m) by (unfold entries; rewrite m_frame; reflexivity).
  assert (SELF : forall p, In p (entries s' l) -> ~ preach (hp s') p l).
  { intros p I. destruct (entry_cases p I) as [->|(j & NJ & Q)]; [apply r_not; auto; apply not_T_l|].
    intros X. apply (OP j p NJ Q) in X. apply (mi_self _ _ _ _ MI p (nth_error_In _ _ Q) X). }
  assert (AR : forall p, (forall x, preach (hp s) p x -> live s x) -> (forall x, preach (hp s') p x <-> preach (hp s) p x) ->
     (forall o, T = Some o -> ~ preach (hp s) p o) -> apart s' p (Some r)).
  { intros p PL PS NT x X (y & Q & Y). injection Q as <-. apply PS in X.
    destruct (GR x Y) as [A|[(_ & A & _)|A]]; [exact A|exfalso; auto|exfalso; exact (NT x A X)]. }
  assert (OT : forall j p, j <> jx -> nth_error (entries s l) j = Some p -> forall o, T = Some o -> ~ preach (hp s) p o).
  { intros j p NJ Q o TO X. destruct (TJ o TO) as [O5 QO].
    pose proof (mi_sep _ _ _ _ MI j jx p (Some o) NJ Q QO o X (preach_self _ o)). lia. }
  assert (ST : forall p, In p (entries s m) -> forall o, T = Some o -> ~ preach (hp s) p o).
  { intros p I o TO X. destruct (TJ o TO) as [O5 QO]. destruct (mi_src _ _ _ _ MI p I) as (_ & _ & AP).
    pose proof (AP (Some o) (nth_error_In _ _ QO) o X (preach_self _ o)). lia. }
  constructor.
  - split; [exact W'|split; [auto|split; [exact DT|]]]. intros I. apply (SELF (Some l) I). apply preach_self.
  - exact DK.
  - split; [exact LEN|]. intros j a b Qa Qb. destruct (RN j a b Qa Qb) as (K & R1 & R2). split; [exact K|].
    destruct (Nat.eq_dec j jx) as [Q|NJ]; [auto|]. apply (rep_frame (hp s)); auto.
    apply (old_frame j); auto. apply OLD; auto. apply nth_entries; auto.
  - intros p I x X. destruct (entry_cases p I) as [->|(j & NJ & Q)].
    + destruct X as (y & Q & X). injection Q as <-. destruct (GR x X) as [A|[(_ & _ & A)|A]]; auto.
      * apply const_live; auto.
      * destruct (TJ x A) as [_ Q]. apply LV. apply (mi_live _ _ _ _ MI (Some x) (nth_error_In _ _ Q)). apply preach_self.
    + apply LV. apply (mi_live _ _ _ _ MI p (nth_error_In _ _ Q)). apply (OP j p NJ Q); auto.
  - exact SELF.
  - intros i j p q NE Qi Qj. destruct (Nat.eq_dec i jx) as [->|Ni], (Nat.eq_dec j jx) as [->|Nj].
    + congruence.
    + rewrite NEW in Qi. injection Qi as <-. pose proof (OLD j q Nj Qj) as Q. intros x X Y.
      exact (AR q (mi_live _ _ _ _ MI q (nth_error_In _ _ Q)) (OP j q Nj Q) (OT j q Nj Q) x Y X).
    + rewrite NEW in Qj. injection Qj as <-. pose proof (OLD i p Ni Qi) as Q.
      exact (AR p (mi_live _ _ _ _ MI p (nth_error_In _ _ Q)) (OP i p Ni Q) (OT i p Ni Q)).
    + pose proof (OLD i p Ni Qi) as Q1. pose proof (OLD j q Nj Qj) as Q2. intros x X Y.
      apply (OP i p Ni Q1) in X. apply (OP j q Nj Q2) in Y. exact (mi_sep _ _ _ _ MI i j p q NE Q1 Q2 x X Y).
  - destruct (mi_m _ _ _ _ MI) as (NE & LM & M5). auto.
  - rewrite EM. intros p I. destruct (mi_src _ _ _ _ MI p I) as (S0 & NL & AP). split; [|split].
    + intros y -> x X. assert (X' : preach (hp s) (Some y) x) by (apply SP; auto; exists y; auto).
      rewrite (src_frame (Some y) I x X'). destruct X' as (y' & Q & X'). injection Q as <-.
      destruct (S0 y eq_refl x X') as [A B]. auto.
    + intros X. apply SP in X; auto.
    + intros q J. destruct (entry_cases q J) as [->|(j & NJ & Q)].
      * apply AR; auto. apply src_plive; auto.
      * intros x X Y. apply SP in X; auto. apply (OP j q NJ Q) in Y. exact (AP q (nth_error_In _ _ Q) x X Y).
  - intros q J X. destruct (entry_cases q J) as [->|(j & NJ & Q)].
    + revert X. apply r_not; auto; [apply live_m|apply (mi_m _ _ _ _ MI)|]. intros TM. destruct (TJ m TM) as [_ Q].
      apply (mi_notm _ _ _ _ MI (Some m) (nth_error_In _ _ Q)). apply preach_self.
    + apply (OP j q NJ Q) in X. apply (mi_notm _ _ _ _ MI q (nth_error_In _ _ Q) X).
Qed.
End Step.

(** ** The iterations *)
Lemma rep_upd s o c p v : rep (hp s) p v -> ~ preach (hp s) p o ->
  rep (hp (set_cell s o c)) p v /\ forall x, preach (hp (set_cell s o c)) p x <-> preach (hp s) p x.
Proof.
  intros R NP. assert (F : forall x, preach (hp s) p x -> hp (set_cell s o c) x = hp s x).
  { intros x X. cbn [set_cell hp]. apply upd_other. intros ->. auto. }
  split; [apply (rep_frame (hp s)); auto|apply preach_frame; auto].
Qed.
Lemma clone_one s p w : wf s -> src_ok s p -> clonable w -> rep (hp s) p w ->
  exists n r s', clone G n s p None = Ok (r, s') /\ wf s' /\ (forall x, live s x -> live s' x /\ hp s' x = hp s x) /\
    rep (hp s') (Some r) (strip w) /\
    (forall x, reach (hp s') r x -> (x < 5)%nat \/ ((5 <= x)%nat /\ ~ live s x /\ live s' x)) /\ (r < nx s')%nat.
Proof.
  intros W SO CB R. destruct (clones_all G w CB) as (n & H).
  destruct (H n s p None (le_n n) W (ok_cache_none N s) SO R) as (r & s' & Q & C).
  exists n, r, s'. split; [exact Q|]. destruct (k_tr _ _ _ _ _ C N N W (ok_cache_none N s)) as [T OK].
  split; [exact (tr_inv _ _ _ _ T)|]. split; [intros x X; split; [apply (k_lives _ _ _ _ _ C); auto|apply (k_frame _ _ _ _ _ C); auto]|].
  split; [apply (k_rep _ _ _ _ _ C)|]. split; [apply (k_new _ _ _ _ _ C)|]. apply (OK r). constructor.
Qed.

(** What the callback, if any, decides about a collision, and the path it is given. *)
Definition decide (fn : option merge_fn) (path : bytes) (op : merge_op) (k : bytes) (old new : ptr) : bytes * merge_op :=
  match fn with
  | Some g => let path' := (match path with [] => [] | _ => path ++ [47] end) ++ k in (path', g path' old new)
  | None => (path, op)
  end.
Lemma merge_S f s path op l m i fn : mergeObject E G (S f) s path op l m i fn =
  match nth_error (c_kvs (hp s m)) i with
  | None => Ok (path, s)
  | Some (k, _) =>
      match obj_index E s l k with
      | (Some idx, s1) =>
          let old := match nth_error (c_kvs (hp s1 l)) idx with Some (_, p) => p | None => None end in
          let new := match nth_error (c_kvs (hp s1 m)) i with Some (_, p) => p | None => None end in
          let k1 := match nth_error (c_kvs (hp s1 m)) i with Some (k', _) => k' | None => [] end in
          let path' := fst (decide fn path op k1 old new) in
          match snd (decide fn path op k1 old new) with
          | MO_Normal =>
              match old with
              | None => Panic
              | Some o =>
                  if vt_code (c_dt (hp s1 o)) <=? vt_code TArray then
                    match new with
                    | Some n => mergeObject E G f s1 path' MO_Normal o n O fn
                    | None => Panic
                    end
                  else
                    do (oc, s2) <- clone G f s1 old None;
                    let s3 := Reset s2 o TArray in
                    let s4 := SetIndexValue s3 o 0 (Some oc) in
                    do (ncl, s5) <- clone G f s4 new None;
                    let s6 := SetIndexValue s5 o 1 (Some ncl) in
                    mergeObject E G f s6 path' MO_Normal l m (S i) fn
              end
          | MO_Replace =>
              match old with
              | None => Panic
              | Some o =>
                  let s2 := Reset s1 o TNull in
                  do (ncl, s3) <- clone G f s2 new None;
                  let cl := hp s3 l in
                  mergeObject E G f
                    (set_cell s3 l (w_obj cl (c_unesc cl) (set_val idx (Some ncl) (c_kvs cl)) (c_spare cl)))
                    path' MO_Replace l m (S i) fn
              end
          | MO_Custom => mergeObject E G f s1 path' MO_Custom l m (S i) fn
          end
      | (None, s1) =>
          match nth_error (c_kvs (hp s1 m)) i with
          | Some (k', p) =>
              do (x, s2) <- clone G f s1 p None;
              mergeObject E G f (SetKeyValue E G s2 l k' (Some x)) path op l m (S i) fn
          | None => Panic
          end
      end
  end.
Proof.
  cbn [mergeObject]. destruct (nth_error (c_kvs (hp s m)) i) as [[k p]|]; [|reflexivity].
  destruct (obj_index E s l k) as [[idx|] s1]; [|reflexivity]. cbv zeta. unfold decide. destruct fn as [g|]; cbn [fst snd].
  - destruct (g _ _ _); reflexivity.
  - destruct op; reflexivity.
Qed.

Lemma merge_mono fn f : forall s path op l m i r, mergeObject E G f s path op l m i fn = Ok r ->
  forall f', (f <= f')%nat -> mergeObject E G f' s path op l m i fn = Ok r.
Proof.
  induction f as [|f IH]; intros s path op l m i r H [|f'] L; try discriminate; try lia. rewrite merge_S in H |- *.
  cbv zeta in *. destruct (nth_error (c_kvs (hp s m)) i) as [[k p]|]; auto.
  destruct (obj_index E s l k) as [[idx|] s1].
  - destruct (snd (decide _ _ _ _ _ _)).
    + apply (IH _ _ _ _ _ _ _ H); lia.
    + destruct (match nth_error (c_kvs (hp s1 l)) idx with Some (_, p) => p | None => None end) as [o|]; auto.
      apply bind_Ok in H as ([x s2] & H1 & H2). rewrite (clone_mono G f f' _ _ _ _ H1) by lia. cbn [bind]. apply (IH _ _ _ _ _ _ _ H2); lia.
    + destruct (match nth_error (c_kvs (hp s1 l)) idx with Some (_, p) => p | None => None end) as [o|]; auto.
      destruct (_ <=? _).
      * destruct (match nth_error (c_kvs (hp s1 m)) i with Some (_, p) => p | None => None end); auto. apply (IH _ _ _ _ _ _ _ H); lia.
      * apply bind_Ok in H as ([x s2] & H1 & H2). rewrite (clone_mono G f f' _ _ _ _ H1) by lia. cbn [bind].
        apply bind_Ok in H2 as ([y s3] & H2 & H3). rewrite (clone_mono G f f' _ _ _ _ H2) by lia. cbn [bind]. apply (IH _ _ _ _ _ _ _ H3); lia.
  - destruct (nth_error (c_kvs (hp s1 m)) i) as [[k' p']|]; auto.
    apply bind_Ok in H as ([x s2] & H1 & H2). rewrite (clone_mono G f f' _ _ _ _ H1) by lia. cbn [bind]. apply (IH _ _ _ _ _ _ _ H2); lia.
Qed.

Lemma siv_append s o p : c_dt (hp s o) = TArray ->
  SetIndexValue s o (zlen (c_arr (hp s o))) p = set_cell s o (w_arr (hp s o) (c_arr (hp s o) ++ [p])).
Proof.
  intros D. unfold SetIndexValue. rewrite D. change (vt_eqb TArray TArray) with true. cbv zeta iota.
  rewrite Z.ltb_irrefl, andb_false_r. reflexivity.
Qed.
Lemma nth_pair_entry s l j k p : nth_error (pairs s l) j = Some (k, p) -> nth_error (entries s l) j = Some p.
Proof. intros Q. apply (nth_entries l s j (k, p) Q). Qed.

(** What an iteration leaves alone. *)
Definition outside (s : st) (l x : nat) : Prop := (x < 5)%nat \/ (x <> l /\ forall p, In p (entries s l) -> ~ preach (hp s) p x).

Lemma collide s l m cv i k p w k0 o old idx : minv s l m cv ->
  nth_error (c_kvs (hp s m)) i = Some (k, p) -> rep (hp s) p w -> clonable w ->
  find_key E (pairs s l) k = Some idx -> nth_error (pairs s l) idx = Some (k0, Some o) ->
  nth_error cv idx = Some (k0, old) -> clonable old -> (5 <= o)%nat -> vt_code TArray < vt_code (c_dt (hp s o)) ->
  src_ok s (Some o) ->
  exists n0 s', (forall fn f path op path', (n0 <= f)%nat -> decide fn path op k (Some o) p = (path', MO_Normal) ->
      mergeObject E G (S f) s path op l m i fn = mergeObject E G f s' path' MO_Normal l m (S i) fn) /\
    minv s' l m (set_val idx (VArray [strip old; strip w]) cv) /\ pairs s' l = pairs s l /\ hp s' m = hp s m /\
    (forall x, live s x -> live s' x) /\ (forall x, live s x -> x <> l -> x <> o -> hp s' x = hp s x).
Proof.
  intros MI NM RW CW FK NP NC CO O5 DO SO.
  pose proof (mi_good _ _ _ _ MI) as (W & Ll & Dl & SF).
  destruct (mi_m _ _ _ _ MI) as (NE & LM & M5).
  assert (QE : nth_error (entries s l) idx = Some (Some o)) by (eapply nth_pair_entry; eauto).
  assert (IO : In (Some o) (entries s l)) by (eapply nth_error_In; eauto).
  assert (NOL : o <> l). { intros ->. apply (mi_self _ _ _ _ MI (Some l) IO), preach_self. }
  assert (NOM : o <> m). { intros ->. apply (mi_notm _ _ _ _ MI (Some m) IO), preach_self. }
  assert (LO : live s o) by (apply (mi_live _ _ _ _ MI (Some o) IO), preach_self).
  assert (IP : In p (entries s m)). { apply nth_error_In in NM. apply (in_map snd) in NM. exact NM. }
  destruct (mi_src _ _ _ _ MI p IP) as (SP & NPL & AP).
  destruct (mi_rep _ _ _ _ MI) as [LEN RR]. destruct (RR idx _ _ NP NC) as [_ RO]. cbn [snd] in RO.
  assert (NOL' : ~ preach (hp s) (Some o) l) by (apply (mi_self _ _ _ _ MI); auto).
  (* the lookup *)
  destruct (obj_index_spec E EO s l k (mi_dist _ _ _ _ MI)) as (u' & kvs' & H1 & H2 & H3 & HN & H4).
  destruct (obj_index E s l k) as [ri s1] eqn:OI. cbn [fst snd] in *. rewrite FK in H2. subst ri.
  assert (W1 : wf s1). { pose proof (tr_obj_index N N E s l k W (ok_of_live s l Ll)) as T. rewrite OI in T. apply T. }
  assert (F1 : forall x, x <> l -> hp s1 x = hp s x) by (intros x X; rewrite H1; cbn [set_cell hp]; apply upd_other; auto).
  assert (V1 : forall x, live s x -> live s1 x) by (intros x X; rewrite H1; exact X).
  assert (V1' : forall x, live s1 x -> live s x) by (intros x X; rewrite H1 in X; exact X).
  assert (C1 : hp s1 l = w_obj (hp s l) u' kvs' (c_spare (hp s l))) by (rewrite H1; cbn [set_cell hp]; apply upd_same).
  assert (P1 : pairs s1 l = pairs s l) by (rewrite H1, pairs_set_cell; exact H3).
  assert (EQ1 : entries s1 l = entries s l). { unfold entries. rewrite C1. exact H4. }
  assert (OLDV : match nth_error (c_kvs (hp s1 l)) idx with Some (_, q) => q | None => None end = Some o).
  { rewrite <- EQ1 in QE. unfold entries in QE. rewrite nth_error_map in QE. destruct (nth_error (c_kvs (hp s1 l)) idx) as [[k1 q]|]; cbn in QE; congruence. }
  assert (RO1 : rep (hp s1) (Some o) old /\ forall x, preach (hp s1) (Some o) x <-> preach (hp s) (Some o) x).
  { rewrite H1. apply rep_upd; auto. }
  assert (RP1 : rep (hp s1) p w /\ forall x, preach (hp s1) p x <-> preach (hp s) p x).
  { rewrite H1. apply rep_upd; auto. }
  assert (SRC : forall t q, (forall x, preach (hp s) q x -> hp t x = hp s x) -> (forall x, live s x -> live t x) -> src_ok s q -> src_ok t q).
  { intros t q F V S0 y -> x X. assert (X' : preach (hp t) (Some y) x) by (exists y; auto).
    apply (preach_frame (hp s) (hp t) (Some y) F) in X'. rewrite (F x X'). destruct X' as (y' & Q & X'). injection Q as <-.
    destruct (S0 y eq_refl x X') as [A B]. auto. }
  (* copy of the old value *)
  assert (SO1 : src_ok s1 (Some o)).
  { apply SRC; auto. intros x X. apply F1. intros ->. auto. }
  destruct (clone_one s1 (Some o) old W1 SO1 CO (proj1 RO1)) as (n1 & oc & s2 & E1 & W2 & K2 & RC & NW2 & LC).
  assert (O2 : hp s2 o = hp s o). { rewrite (proj2 (K2 o (V1 o LO))). apply F1; auto. }
  set (s4 := SetIndexValue (Reset s2 o TArray) o 0 (Some oc)).
  assert (LO2 : live s2 o) by (apply (K2 o (V1 o LO))).
  assert (RES : Reset s2 o TArray = set_cell s2 o (reset_cell (hp s2 o) TArray)).
  { unfold Reset. rewrite (proj2 (ReadOnly_ge o) O5). reflexivity. }
  assert (S4 : exists c4, hp s4 = upd (upd (hp s2) o (reset_cell (hp s2 o) TArray)) o c4 /\ c_dt c4 = TArray /\ c_arr c4 = [Some oc] /\
     (forall x, live s2 x <-> live s4 x)).
  { unfold s4. rewrite RES. set (t := set_cell s2 o (reset_cell (hp s2 o) TArray)).
    assert (Ht : hp t o = reset_cell (hp s2 o) TArray) by (unfold t; cbn [set_cell hp]; apply upd_same).
    pose proof (siv_append t o (Some oc)) as SA. rewrite Ht, arr_reset, dt_reset in SA. change (zlen []) with 0 in SA.
    rewrite SA by reflexivity. eexists. split; [reflexivity|]. cbn [w_arr c_dt c_arr]. rewrite dt_reset.
    split; [auto|split; [auto|]]. intros x. split; intros X; exact X. }
  destruct S4 as (c4 & HP4 & D4 & A4 & V4).
  assert (F4 : forall x, x <> o -> hp s4 x = hp s2 x) by (intros x X; rewrite HP4; rewrite !upd_other by auto; reflexivity).
  assert (C4 : hp s4 o = c4) by (rewrite HP4; apply upd_same).
  assert (W4 : wf s4).
  { assert (T3 : tr N N s2 (Reset s2 o TArray)) by (apply tr_Reset; [exact W2|apply ok_of_live; auto]).
    assert (T4 : tr N N (Reset s2 o TArray) s4).
    { apply tr_SetIndexValue; [apply T3|eapply ok_loc_tr; [exact T3|apply ok_of_live; auto]|].
      intros x Q. injection Q as <-. eapply ok_loc_tr; [exact T3|]. split; [exact LC|intros []]. }
    apply T4. }
  assert (OCN : ~ preach (hp s2) (Some oc) o).
  { intros (y & Q & X). injection Q as <-. destruct (NW2 o X) as [A|(_ & A & _)]; [lia|]. apply A, V1, LO. }
  (* frames up to s4 *)
  assert (FS4 : forall x, live s x -> x <> l -> x <> o -> hp s4 x = hp s x).
  { intros x X Xl Xo. rewrite F4 by auto. rewrite (proj2 (K2 x (V1 x X))). auto. }
  assert (V04 : forall x, live s x -> live s4 x).
  { intros x X. apply V4. apply (K2 x (V1 x X)). }
  assert (PO : forall x, preach (hp s) p x -> x <> o).
  { intros x X ->. pose proof (AP (Some o) IO o X (preach_self _ o)). lia. }
  assert (FP4 : forall x, preach (hp s) p x -> hp s4 x = hp s x).
  { intros x X. apply FS4; [apply (src_plive s p SP x X)| |auto]. intros ->. auto. }
  (* copy of the new value *)
  destruct (clone_one s4 p w W4 (SRC s4 p FP4 V04 SP) CW (rep_frame _ _ _ _ RW FP4)) as (n2 & ncl & s5 & E2 & W5 & K5 & RN & NW5 & LN).
  assert (C5 : hp s5 o = c4). { rewrite (proj2 (K5 o (V04 o LO))). exact C4. }
  set (s6 := SetIndexValue s5 o 1 (Some ncl)).
  assert (S6 : s6 = set_cell s5 o (w_arr c4 [Some oc; Some ncl])).
  { unfold s6. pose proof (siv_append s5 o (Some ncl)) as SA. rewrite C5, A4, D4 in SA. change (zlen [Some oc]) with 1 in SA.
    rewrite SA by reflexivity. reflexivity. }
  assert (W6 : wf s6).
  { assert (T : tr N N s5 s6); [|apply T]. apply tr_SetIndexValue; [exact W5|apply ok_of_live, K5, V04, LO|].
    intros x Q. injection Q as <-. split; [exact LN|intros []]. }
  assert (C6 : hp s6 o = w_arr c4 [Some oc; Some ncl]) by (rewrite S6; cbn [set_cell hp]; apply upd_same).
  assert (F6 : forall x, x <> o -> hp s6 x = hp s5 x) by (intros x X; rewrite S6; cbn [set_cell hp]; apply upd_other; auto).
  assert (V6 : forall x, live s5 x -> live s6 x) by (intros x X; rewrite S6; exact X).
  assert (V06 : forall x, live s x -> live s6 x) by (intros x X; apply V6, K5, V04, X).
  assert (FS6 : forall x, live s x -> x <> l -> x <> o -> hp s6 x = hp s x).
  { intros x X Xl Xo. rewrite F6 by auto. rewrite (proj2 (K5 x (V04 x X))). auto. }
  assert (L6 : hp s6 l = hp s1 l).
  { rewrite F6 by auto. rewrite (proj2 (K5 l (V04 l Ll))). rewrite F4 by auto. apply (K2 l (V1 l Ll)). }
  (* the two copies in the final state *)
  assert (PLOC : forall x, preach (hp s2) (Some oc) x -> live s2 x).
  { intros x (y & Q & X). injection Q as <-. destruct (NW2 x X) as [A|(_ & _ & A)]; [apply const_live; auto|auto]. }
  assert (FOC : forall x, preach (hp s2) (Some oc) x -> hp s6 x = hp s2 x).
  { intros x X. assert (Xo : x <> o) by (intros ->; auto). rewrite F6 by auto.
    rewrite (proj2 (K5 x (proj1 (V4 x) (PLOC x X)))). apply F4; auto. }
  assert (NCN : ~ preach (hp s5) (Some ncl) o).
  { intros (y & Q & X). injection Q as <-. destruct (NW5 o X) as [A|(_ & A & _)]; [lia|]. apply A, V04, LO. }
  assert (FNC : forall x, preach (hp s5) (Some ncl) x -> hp s6 x = hp s5 x).
  { intros x X. apply F6. intros ->. auto. }
  exists (n1 + n2)%nat, s6. split.
  { intros fn f path op path' Fu DC. rewrite merge_S. rewrite NM, OI. cbv zeta. rewrite OLDV.
    assert (M1 : hp s1 m = hp s m) by (apply F1; auto). rewrite M1, NM, DC. cbn [fst snd].
    assert (DO1 : c_dt (hp s1 o) = c_dt (hp s o)) by (rewrite F1; auto). rewrite DO1.
    rewrite (proj2 (Z.leb_gt _ _) DO).
    rewrite (clone_mono G n1 f _ _ _ _ E1) by lia. cbn [bind]. fold s4.
    rewrite (clone_mono G n2 f _ _ _ _ E2) by lia. cbn [bind]. fold s6. reflexivity. }
  assert (P6 : pairs s6 l = pairs s l). { rewrite <- P1. unfold HeapCalls.pairs. rewrite L6. reflexivity. }
  assert (EQ6 : entries s6 l = entries s l). { unfold entries. rewrite L6. exact EQ1. }
  split.
  { apply (minv_step s s6 l m idx cv (Some o) MI W6 V06) with (r := o).
    - intros x X Xl Xo. apply FS6; [auto|auto|congruence].
    - intros o' Q. injection Q as <-. auto.
    - rewrite L6, C1. exact Dl.
    - rewrite P6. apply (mi_dist _ _ _ _ MI).
    - rewrite EQ6. auto.
    - rewrite EQ6. exact QE.
    - intros x X. apply reach_cases in X as [->|(y & Y & X)]; [right; right; reflexivity|].
      unfold sees in Y. rewrite C6 in Y. cbn [w_arr c_dt c_arr] in Y. rewrite D4 in Y. destruct Y as [Y|[Y|[]]]; injection Y as ->.
      + assert (X' : preach (hp s2) (Some y) x). { apply (preach_frame (hp s2) (hp s6) (Some y) FOC). exists y; auto. }
        destruct X' as (y' & Q & X'). injection Q as <-. destruct (NW2 x X') as [A|(A & B & C)]; auto. right. left. split; [auto|split].
        * intros LX. apply B, V1, LX.
        * apply V6, K5, V4, C.
      + assert (X' : preach (hp s5) (Some y) x). { apply (preach_frame (hp s5) (hp s6) (Some y) FNC). exists y; auto. }
        destruct X' as (y' & Q & X'). injection Q as <-. destruct (NW5 x X') as [A|(A & B & C)]; auto. right. left. split; [auto|split].
        * intros LX. apply B, V04, LX.
        * apply V6, C.
    - rewrite P6, LEN. pose proof (map_fst_set_val idx (VArray [strip old; strip w]) cv) as M.
      apply (f_equal (@List.length _)) in M. rewrite !map_length in M. auto.
    - intros j a b Qa Qb. rewrite P6 in Qa. rewrite nth_set_val in Qb. destruct (Nat.eqb_spec j idx) as [->|NJ].
      + rewrite NC in Qb. injection Qb as <-. rewrite NP in Qa. injection Qa as <-. cbn [fst snd]. split; [auto|split; [|congruence]].
        intros _. apply rep_arr; rewrite C6; [exact D4|]. cbn [w_arr c_arr]. constructor; [|constructor; [|constructor]].
        * apply (rep_frame (hp s2)); auto.
        * apply (rep_frame (hp s5)); auto.
      + destruct (RR j a b Qa Qb) as [A B]. split; [auto|split; [congruence|auto]]. }
  split; [exact P6|]. split; [apply FS6; auto|]. split; auto.
Qed.

Lemma set_value_frame s l name p : c_dt (hp s l) = TObject ->
  (forall x, x <> l -> hp (SetKeyValue E G s l name p) x = hp s x) /\
  (forall x, live s x <-> live (SetKeyValue E G s l name p) x).
Proof.
  intros D. unfold SetKeyValue. rewrite D. change (vt_eqb TObject TArray) with false. change (vt_eqb TObject TObject) with true.
  cbn [andb]. cbv zeta. unfold obj_index. destruct (index_by_name E (c_unesc (hp s l)) (c_kvs (hp s l)) name) as [[i|] [u kv]];
    (split; [intros x X; cbn [set_cell hp]; rewrite !upd_other by auto; reflexivity|intros x; split; intros X; exact X]).
Qed.

Lemma append_one s l m cv i k p w : minv s l m cv ->
  nth_error (c_kvs (hp s m)) i = Some (k, p) -> rep (hp s) p w -> clonable w ->
  find_key E (pairs s l) k = None ->
  exists n0 s' r, (forall fn f path op, (n0 <= f)%nat ->
      mergeObject E G (S f) s path op l m i fn = mergeObject E G f s' path op l m (S i) fn) /\
    minv s' l m (cv ++ [(k, strip w)]) /\ pairs s' l = pairs s l ++ [(k, Some r)] /\ hp s' m = hp s m /\
    (forall x, live s x -> live s' x) /\ (forall x, live s x -> x <> l -> hp s' x = hp s x).
Proof.
  intros MI NM RW CW FK.
  pose proof (mi_good _ _ _ _ MI) as (W & Ll & Dl & SF).
  destruct (mi_m _ _ _ _ MI) as (NE & LM & M5).
  assert (IP : In p (entries s m)). { apply nth_error_In in NM. apply (in_map snd) in NM. exact NM. }
  destruct (mi_src _ _ _ _ MI p IP) as (SP & NPL & AP).
  destruct (mi_rep _ _ _ _ MI) as [LEN RR].
  destruct (obj_index_spec E EO s l k (mi_dist _ _ _ _ MI)) as (u' & kvs' & H1 & H2 & H3 & HN & H4).
  destruct (obj_index E s l k) as [ri s1] eqn:OI. cbn [fst snd] in *. rewrite FK in H2. subst ri.
  assert (W1 : wf s1). { pose proof (tr_obj_index N N E s l k W (ok_of_live s l Ll)) as T. rewrite OI in T. apply T. }
  assert (F1 : forall x, x <> l -> hp s1 x = hp s x) by (intros x X; rewrite H1; cbn [set_cell hp]; apply upd_other; auto).
  assert (V1 : forall x, live s x -> live s1 x) by (intros x X; rewrite H1; exact X).
  assert (V1' : forall x, live s1 x -> live s x) by (intros x X; rewrite H1 in X; exact X).
  assert (C1 : hp s1 l = w_obj (hp s l) u' kvs' (c_spare (hp s l))) by (rewrite H1; cbn [set_cell hp]; apply upd_same).
  assert (P1 : pairs s1 l = pairs s l) by (rewrite H1, pairs_set_cell; exact H3).
  assert (EQ1 : entries s1 l = entries s l). { unfold entries. rewrite C1. exact H4. }
  assert (RP1 : rep (hp s1) p w /\ forall x, preach (hp s1) p x <-> preach (hp s) p x).
  { rewrite H1. apply rep_upd; auto. }
  assert (SP1 : src_ok s1 p).
  { intros y -> x X. assert (X' : preach (hp s) (Some y) x) by (apply RP1; exists y; auto).
    rewrite F1 by (intros ->; auto). destruct X' as (y' & Q & X'). injection Q as <-.
    destruct (SP y eq_refl x X') as [A B]. auto. }
  destruct (clone_one s1 p w W1 SP1 CW (proj1 RP1)) as (n1 & r & s2 & E1 & W2 & K2 & RC & NW2 & LC).
  assert (L2 : live s2 l) by (apply (K2 l (V1 l Ll))).
  assert (HL2 : hp s2 l = hp s1 l) by (apply (K2 l (V1 l Ll))).
  assert (NRL : r <> l).
  { intros ->. destruct (NW2 l (reach_refl _ _)) as [A|(_ & A & _)].
    - pose proof (good_5 s l W (or_introl Dl)). lia.
    - apply A, V1, Ll. }
  assert (G2 : good_obj s2 l).
  { split; [exact W2|split; [exact L2|]]. rewrite HL2, C1. cbn [w_obj c_dt c_kvs]. split; [exact Dl|]. rewrite H4. exact SF. }
  assert (P2 : pairs s2 l = pairs s l). { rewrite <- P1. unfold HeapCalls.pairs. rewrite HL2. reflexivity. }
  destruct (set_value_spec E G EO s2 l k (Some r) G2) as [G3 P3].
  { rewrite P2. apply (mi_dist _ _ _ _ MI). }
  { congruence. }
  { intros x Q. injection Q as <-. exact LC. }
  destruct (set_value_frame s2 l k (Some r)) as [F3 V3]; [apply G2|].
  set (s3 := SetKeyValue E G s2 l k (Some r)) in *. rewrite P2, FK in P3.
  assert (V03 : forall x, live s x -> live s3 x) by (intros x X; apply V3, K2, V1, X).
  assert (FS : forall x, live s x -> x <> l -> hp s3 x = hp s x).
  { intros x X Xl. rewrite F3 by auto. rewrite (proj2 (K2 x (V1 x X))). auto. }
  assert (EN3 : entries s3 l = entries s l ++ [Some r]). { rewrite <- !entries_pairs, P3, map_app. reflexivity. }
  assert (LE : List.length (entries s l) = List.length (pairs s l)) by (rewrite <- entries_pairs, map_length; reflexivity).
  assert (NCR : ~ preach (hp s2) (Some r) l).
  { intros (y & Q & X). injection Q as <-. destruct (NW2 l X) as [A|(_ & A & _)].
    - pose proof (good_5 s l W (or_introl Dl)). lia.
    - apply A, V1, Ll. }
  assert (FC : forall x, preach (hp s2) (Some r) x -> hp s3 x = hp s2 x).
  { intros x X. apply F3. intros ->. auto. }
  exists n1, s3, r. split.
  { intros fn f path op Fu. rewrite merge_S, NM, OI. assert (M1 : hp s1 m = hp s m) by (apply F1; auto). rewrite M1, NM.
    rewrite (clone_mono G n1 f _ _ _ _ E1) by lia. reflexivity. }
  split.
  { apply (minv_step s s3 l m (List.length (pairs s l)) cv None MI (proj1 G3) V03) with (r := r).
    - intros x X Xl _. apply FS; auto.
    - intros o Q. discriminate.
    - apply G3.
    - rewrite P3. 
      assert (DD : forall q : list (bytes * ptr), distinct_keys same q -> find_key E q k = None -> distinct_keys same (q ++ [(k, Some r)])).
      { clear. intros q D F. unfold distinct_keys in *. induction D as [|x a H D IH]; cbn [app]; constructor; try constructor.
        - rewrite Forall_forall in *. intros y I. apply in_app_or in I as [I|[<-|[]]]; auto. cbn [fst].
          apply (find_key_none E) with (k := fst x) (x := snd x) in F; auto. left. destruct x; reflexivity.
        - apply IH. cbn [find_key] in F. destruct x as [kx xx]. destruct (same kx k); [discriminate|]. destruct (find_key E a k); [discriminate|auto]. }
      apply DD; [apply (mi_dist _ _ _ _ MI)|exact FK].
    - intros j q NJ Q. rewrite EN3 in Q. assert (LT : (j < List.length (entries s l ++ [Some r]))%nat) by (apply nth_error_Some; congruence).
      rewrite app_length in LT. cbn [List.length] in LT. rewrite nth_error_app1 in Q by lia. exact Q.
    - rewrite EN3, <- LE, nth_error_app2, Nat.sub_diag by lia. reflexivity.
    - intros x X. assert (X' : preach (hp s2) (Some r) x). { apply (preach_frame (hp s2) (hp s3) (Some r) FC). exists r; auto. }
      destruct X' as (y' & Q & X'). injection Q as <-. destruct (NW2 x X') as [A|(A & B & C)]; auto. right. left. split; [auto|split].
      + intros LX. apply B, V1, LX.
      + apply V3, C.
    - rewrite P3, !app_length, LEN. reflexivity.
    - intros j a b Qa Qb. rewrite P3 in Qa. assert (LT : (j < List.length (pairs s l ++ [(k, Some r)]))%nat) by (apply nth_error_Some; congruence).
      rewrite app_length in LT. cbn [List.length] in LT.
      destruct (Nat.eq_dec j (List.length (pairs s l))) as [->|NJ].
      + rewrite nth_error_app2, Nat.sub_diag in Qa by lia. rewrite LEN, nth_error_app2, Nat.sub_diag in Qb by lia.
        injection Qa as <-. injection Qb as <-. cbn [fst snd]. split; [auto|split; [|congruence]]. intros _. apply (rep_frame (hp s2)); auto.
      + rewrite nth_error_app1 in Qa by lia. rewrite nth_error_app1 in Qb by lia. destruct (RR j a b Qa Qb) as [A B]. split; [auto|split; [congruence|auto]]. }
  split; [exact P3|]. split; [apply FS; auto|]. split; auto.
Qed.

Lemma find_key_fst {A B} (a : list (bytes * A)) : forall (b : list (bytes * B)) k, map fst a = map fst b -> find_key E a k = find_key E b k.
Proof.
  induction a as [|[x xa] a IH]; intros [|[y yb] b] k M; try discriminate; auto. cbn [map fst] in M. injection M as -> M.
  cbn [find_key]. rewrite (IH b k M). reflexivity.
Qed.
Lemma listed_fst h ps cv : listed h ps cv -> map fst ps = map fst cv.
Proof.
  intros [L R]. revert cv L R. induction ps as [|a ps IH]; intros [|b cv] L R; try discriminate; auto. cbn [map]. f_equal.
  - apply (R O a b); reflexivity.
  - apply IH; [cbn in L; lia|]. intros j. apply (R (S j)).
Qed.

(** The verdict "replace": the old value is reset and a copy of the new one takes its place. *)
Lemma replace_one s l m cv i k p w k0 o old idx : minv s l m cv ->
  nth_error (c_kvs (hp s m)) i = Some (k, p) -> rep (hp s) p w -> clonable w ->
  find_key E (pairs s l) k = Some idx -> nth_error (pairs s l) idx = Some (k0, Some o) ->
  nth_error cv idx = Some (k0, old) ->
  exists n0 s' r, (forall fn f path op path', (n0 <= f)%nat -> decide fn path op k (Some o) p = (path', MO_Replace) ->
      mergeObject E G (S f) s path op l m i fn = mergeObject E G f s' path' MO_Replace l m (S i) fn) /\
    minv s' l m (set_val idx (strip w) cv) /\ pairs s' l = set_val idx (Some r) (pairs s l) /\ hp s' m = hp s m /\
    (forall x, live s x -> live s' x) /\ (forall x, live s x -> x <> l -> ((5 <= x)%nat -> x <> o) -> hp s' x = hp s x).
Proof.
  intros MI NM RW CW FK NP NC.
  pose proof (mi_good _ _ _ _ MI) as (W & Ll & Dl & SF).
  pose proof (good_5 s l W (or_introl Dl)) as L5.
  destruct (mi_m _ _ _ _ MI) as (NE & LM & M5).
  assert (QE : nth_error (entries s l) idx = Some (Some o)) by (eapply nth_pair_entry; eauto).
  assert (IO : In (Some o) (entries s l)) by (eapply nth_error_In; eauto).
  assert (NOL : o <> l). { intros ->. apply (mi_self _ _ _ _ MI (Some l) IO), preach_self. }
  assert (NOM : o <> m). { intros ->. apply (mi_notm _ _ _ _ MI (Some m) IO), preach_self. }
  assert (LO : live s o) by (apply (mi_live _ _ _ _ MI (Some o) IO), preach_self).
  assert (IP : In p (entries s m)). { apply nth_error_In in NM. apply (in_map snd) in NM. exact NM. }
  destruct (mi_src _ _ _ _ MI p IP) as (SP & NPL & AP).
  destruct (mi_rep _ _ _ _ MI) as [LEN RR].
  destruct (obj_index_spec E EO s l k (mi_dist _ _ _ _ MI)) as (u' & kvs' & H1 & H2 & H3 & HN & H4).
  destruct (obj_index E s l k) as [ri s1] eqn:OI. cbn [fst snd] in *. rewrite FK in H2. subst ri.
  assert (W1 : wf s1). { pose proof (tr_obj_index N N E s l k W (ok_of_live s l Ll)) as T. rewrite OI in T. apply T. }
  assert (F1 : forall x, x <> l -> hp s1 x = hp s x) by (intros x X; rewrite H1; cbn [set_cell hp]; apply upd_other; auto).
  assert (V1 : forall x, live s x -> live s1 x) by (intros x X; rewrite H1; exact X).
  assert (C1 : hp s1 l = w_obj (hp s l) u' kvs' (c_spare (hp s l))) by (rewrite H1; cbn [set_cell hp]; apply upd_same).
  assert (P1 : pairs s1 l = pairs s l) by (rewrite H1, pairs_set_cell; exact H3).
  assert (EQ1 : entries s1 l = entries s l). { unfold entries. rewrite C1. exact H4. }
  assert (OLDV : match nth_error (c_kvs (hp s1 l)) idx with Some (_, q) => q | None => None end = Some o).
  { rewrite <- EQ1 in QE. unfold entries in QE. rewrite nth_error_map in QE. destruct (nth_error (c_kvs (hp s1 l)) idx) as [[k1 q]|]; cbn in QE; congruence. }
  (* the old cell is reset, unless it is a shared constant *)
  set (s2 := Reset s1 o TNull).
  assert (F2 : forall x, x <> o \/ (o < 5)%nat -> hp s2 x = hp s1 x).
  { intros x X. unfold s2, Reset. destruct (ReadOnly o) eqn:RO; auto. cbn [set_cell hp]. apply upd_other.
    destruct X as [X|X]; auto. apply ReadOnly_ge in RO. lia. }
  assert (V2 : forall x, live s1 x <-> live s2 x). { intros x. unfold s2, Reset. destruct (ReadOnly o); split; intros X; exact X. }
  assert (W2 : wf s2). { apply (tr_Reset N N s1 o TNull W1). apply ok_of_live, V1, LO. }
  assert (FS2 : forall x, live s x -> x <> l -> ((5 <= x)%nat -> x <> o) -> hp s2 x = hp s x).
  { intros x X Xl Xo. rewrite F2; [auto|]. destruct (Nat.eq_dec x o) as [->|]; auto. right.
    destruct (Nat.lt_ge_cases o 5) as [|O5]; auto. exfalso. exact (Xo O5 eq_refl). }
  assert (L2 : hp s2 l = hp s1 l) by (apply F2; left; auto).
  assert (V02 : forall x, live s x -> live s2 x) by (intros x X; apply V2, V1, X).
  assert (FP2 : forall x, preach (hp s) p x -> hp s2 x = hp s x).
  { intros x X. apply FS2; [apply (src_plive s p SP x X)|intros ->; auto|]. intros X5 ->.
    pose proof (AP (Some o) IO o X (preach_self _ o)). lia. }
  assert (SP2 : src_ok s2 p).
  { intros y -> x X. assert (X' : preach (hp s2) (Some y) x) by (exists y; auto).
    apply (preach_frame (hp s) (hp s2) (Some y) FP2) in X'. rewrite (FP2 x X'). destruct X' as (y' & Q & X'). injection Q as <-.
    destruct (SP y eq_refl x X') as [A B]. auto. }
  destruct (clone_one s2 p w W2 SP2 CW (rep_frame _ _ _ _ RW FP2)) as (n1 & r & s3 & E1 & W3 & K3 & RC & NW3 & LC).
  assert (L3 : live s3 l) by (apply (K3 l (V02 l Ll))).
  assert (HL3 : hp s3 l = hp s1 l). { rewrite (proj2 (K3 l (V02 l Ll))). exact L2. }
  set (s4 := set_cell s3 l (w_obj (hp s3 l) (c_unesc (hp s3 l)) (set_val idx (Some r) (c_kvs (hp s3 l))) (c_spare (hp s3 l)))).
  assert (W4 : wf s4).
  { assert (T : tr N N s3 s4); [|apply T]. apply tr_write; [exact W3|apply ok_of_live; auto| |reflexivity].
    apply okc_set_val; [apply (cell_ok_at N N); [exact W3|apply ok_of_live; auto]|]. intros x Q. injection Q as <-. split; [exact LC|intros []]. }
  assert (V4 : forall x, live s3 x <-> live s4 x) by (intros x; split; intros X; exact X).
  assert (F4 : forall x, x <> l -> hp s4 x = hp s3 x) by (intros x X; unfold s4; cbn [set_cell hp]; apply upd_other; auto).
  assert (FS4 : forall x, live s x -> x <> l -> ((5 <= x)%nat -> x <> o) -> hp s4 x = hp s x).
  { intros x X Xl Xo. rewrite F4 by auto. rewrite (proj2 (K3 x (V02 x X))). auto. }
  assert (V04 : forall x, live s x -> live s4 x) by (intros x X; apply V4, K3, V02, X).
  assert (NCR : ~ preach (hp s3) (Some r) l).
  { intros (y & Q & X). injection Q as <-. destruct (NW3 l X) as [A|(_ & A & _)]; [lia|]. apply A, V02, Ll. }
  assert (FC : forall x, preach (hp s3) (Some r) x -> hp s4 x = hp s3 x) by (intros x X; apply F4; intros ->; auto).
  assert (P4 : pairs s4 l = set_val idx (Some r) (pairs s l)).
  { unfold s4. rewrite pairs_set_cell. cbn [w_obj c_unesc c_kvs]. rewrite (view_set_val E). rewrite HL3. fold (pairs s1 l). rewrite P1. reflexivity. }
  assert (EN4 : forall j, nth_error (entries s4 l) j = if (j =? idx)%nat then Some (Some r) else nth_error (entries s l) j).
  { intros j. rewrite <- !entries_pairs, !nth_error_map, P4, nth_set_val. destruct (Nat.eqb_spec j idx) as [->|]; [rewrite NP|]; reflexivity. }
  exists n1, s4, r. split.
  { intros fn f path op path' Fu DC. rewrite merge_S, NM, OI. cbv zeta. rewrite OLDV.
    assert (M1 : hp s1 m = hp s m) by (apply F1; auto). rewrite M1, NM, DC. cbn [fst snd]. fold s2.
    rewrite (clone_mono G n1 f _ _ _ _ E1) by lia. reflexivity. }
  split.
  { apply (minv_step s s4 l m idx cv (if (o <? 5)%nat then None else Some o) MI W4 V04) with (r := r).
    - intros x X Xl Xo. apply FS4; auto. intros X5 ->. rewrite (proj2 (Nat.ltb_ge o 5) X5) in Xo. auto.
    - intros o' Q. destruct (Nat.ltb_spec o 5); [discriminate|]. injection Q as <-. auto.
    - unfold s4. cbn [set_cell hp]. rewrite upd_same. cbn [w_obj c_dt]. rewrite HL3, C1. exact Dl.
    - rewrite P4. unfold distinct_keys. pose proof (mi_dist _ _ _ _ MI) as D. unfold distinct_keys in D.
      assert (X : forall (a b : list (bytes * ptr)), map fst a = map fst b ->
        ForallOrdPairs (fun a b => same (fst a) (fst b) = false) a -> ForallOrdPairs (fun a b => same (fst a) (fst b) = false) b).
      { clear. induction a as [|x a IH]; intros [|y b] M FA; try discriminate; [constructor|]. cbn [map] in M. injection M as M1 M2.
        inversion FA as [|? ? H1 H2]; subst. constructor; [|apply IH; auto]. rewrite <- M1.
        clear - M2 H1. revert b M2. induction a as [|z a IH]; intros [|t b] M2; try discriminate; constructor;
          cbn [map] in M2; injection M2 as M3 M4; inversion H1; subst; [rewrite <- M3; auto|apply IH; auto]. }
      eapply X; [|exact D]. symmetry. apply map_fst_set_val.
    - intros j q NJ Q. rewrite EN4, (proj2 (Nat.eqb_neq j idx) NJ) in Q. exact Q.
    - rewrite EN4, Nat.eqb_refl. reflexivity.
    - intros x X. assert (X' : preach (hp s3) (Some r) x). { apply (preach_frame (hp s3) (hp s4) (Some r) FC). exists r; auto. }
      destruct X' as (y' & Q & X'). injection Q as <-. destruct (NW3 x X') as [A|(A & B & C)]; auto. right. left. split; [auto|split].
      + intros LX. apply B, V02, LX.
      + apply V4, C.
    - rewrite P4. pose proof (map_fst_set_val idx (strip w) cv) as A. apply (f_equal (@List.length _)) in A. rewrite !map_length in A.
      pose proof (map_fst_set_val idx (Some r : ptr) (pairs s l)) as B. apply (f_equal (@List.length _)) in B. rewrite !map_length in B.
      exact (eq_trans B (eq_trans LEN (eq_sym A))).
    - intros j a b Qa Qb. rewrite P4, nth_set_val in Qa. rewrite nth_set_val in Qb. destruct (Nat.eqb_spec j idx) as [->|NJ].
      + rewrite NP in Qa. rewrite NC in Qb. injection Qa as <-. injection Qb as <-. cbn [fst snd]. split; [auto|split; [|congruence]].
        intros _. apply (rep_frame (hp s3)); auto.
      + destruct (RR j a b Qa Qb) as [A B]. split; [auto|split; [congruence|auto]]. }
  split; [exact P4|]. split; [apply FS4; auto|]. split; auto.
Qed.

(** The verdict "custom": nothing happens to either value. *)
Lemma custom_one s l m cv i k p k0 q idx : minv s l m cv ->
  nth_error (c_kvs (hp s m)) i = Some (k, p) ->
  find_key E (pairs s l) k = Some idx -> nth_error (pairs s l) idx = Some (k0, q) ->
  exists s', (forall fn f path op path', decide fn path op k q p = (path', MO_Custom) ->
      mergeObject E G (S f) s path op l m i fn = mergeObject E G f s' path' MO_Custom l m (S i) fn) /\
    minv s' l m cv /\ pairs s' l = pairs s l /\ hp s' m = hp s m /\
    (forall x, live s x -> live s' x) /\ (forall x, x <> l -> hp s' x = hp s x).
Proof.
  intros MI NM FK NP.
  pose proof (mi_good _ _ _ _ MI) as (W & Ll & Dl & SF).
  destruct (mi_m _ _ _ _ MI) as (NE & LM & M5).
  destruct (obj_index_spec E EO s l k (mi_dist _ _ _ _ MI)) as (u' & kvs' & H1 & H2 & H3 & HN & H4).
  destruct (obj_index E s l k) as [ri s1] eqn:OI. cbn [fst snd] in *. rewrite FK in H2. subst ri.
  assert (W1 : wf s1). { pose proof (tr_obj_index N N E s l k W (ok_of_live s l Ll)) as T. rewrite OI in T. apply T. }
  assert (F1 : forall x, x <> l -> hp s1 x = hp s x) by (intros x X; rewrite H1; cbn [set_cell hp]; apply upd_other; auto).
  assert (V1 : forall x, live s x -> live s1 x) by (intros x X; rewrite H1; exact X).
  assert (C1 : hp s1 l = w_obj (hp s l) u' kvs' (c_spare (hp s l))) by (rewrite H1; cbn [set_cell hp]; apply upd_same).
  assert (P1 : pairs s1 l = pairs s l) by (rewrite H1, pairs_set_cell; exact H3).
  assert (EQ1 : entries s1 l = entries s l). { unfold entries. rewrite C1. exact H4. }
  assert (EM1 : entries s1 m = entries s m). { unfold entries. rewrite F1; auto. }
  assert (OLDV : match nth_error (c_kvs (hp s1 l)) idx with Some (_, x) => x | None => None end = q).
  { pose proof (nth_pair_entry _ _ _ _ _ NP) as QE. rewrite <- EQ1 in QE. unfold entries in QE. rewrite nth_error_map in QE.
    destruct (nth_error (c_kvs (hp s1 l)) idx) as [[k1 x]|]; cbn in QE; congruence. }
  exists s1. split.
  { intros fn f path op path' DC. rewrite merge_S, NM, OI. cbv zeta. rewrite OLDV.
    assert (M1 : hp s1 m = hp s m) by (apply F1; auto). rewrite M1, NM, DC. reflexivity. }
  split; [|split; [exact P1|split; [apply F1; auto|split; [exact V1|exact F1]]]].
  assert (PS : forall x, ~ preach (hp s) x l -> forall y, preach (hp s1) x y <-> preach (hp s) x y).
  { intros x NX. apply preach_frame. intros y Y. apply F1. intros ->. auto. }
  assert (NL : forall x, In x (entries s l) -> ~ preach (hp s) x l) by (exact (mi_self _ _ _ _ MI)).
  constructor.
  - split; [exact W1|split; [auto|split; [rewrite C1; exact Dl|]]]. rewrite C1. cbn [w_obj c_kvs]. rewrite H4. exact SF.
  - rewrite P1. apply (mi_dist _ _ _ _ MI).
  - rewrite P1. destruct (mi_rep _ _ _ _ MI) as [LEN RR]. split; [exact LEN|]. intros j a b0 Qa Qb. destruct (RR j a b0 Qa Qb) as [A B]. split; [exact A|].
    apply (rep_frame (hp s)); auto. intros x X. apply F1. intros ->. apply (NL (snd a)); auto.
    apply (nth_entries l s j a) in Qa. eapply nth_error_In; eauto.
  - rewrite EQ1. intros x I y Y. apply V1. apply (mi_live _ _ _ _ MI x I). apply PS; auto.
  - rewrite EQ1. intros x I Y. apply PS in Y; auto. apply (NL x I Y).
  - rewrite EQ1. intros a b0 x y NEab Qx Qy z Zx Zy. apply PS in Zx; [|apply NL; eapply nth_error_In; eauto].
    apply PS in Zy; [|apply NL; eapply nth_error_In; eauto]. exact (mi_sep _ _ _ _ MI a b0 x y NEab Qx Qy z Zx Zy).
  - auto.
  - rewrite EM1. intros x I. destruct (mi_src _ _ _ _ MI x I) as (S0 & NX & AP). split; [|split].
    + intros y -> z Z. assert (Z' : preach (hp s) (Some y) z) by (apply PS; auto; exists y; auto).
      rewrite F1 by (intros ->; auto). destruct Z' as (y' & Q & Z'). injection Q as <-. destruct (S0 y eq_refl z Z') as [A B]. auto.
    + intros X. apply PS in X; auto.
    + rewrite EQ1. intros y J z Zx Zy. apply PS in Zx; auto. apply PS in Zy; [|apply NL; auto]. exact (AP y J z Zx Zy).
  - rewrite EQ1. intros y J X. apply PS in X; [|apply NL; auto]. exact (mi_notm _ _ _ _ MI y J X).
Qed.

(** The verdicts on the pairs [qs] of the argument, asked in order, for a receiver with pairs [ps];
    pairs without a counterpart are not asked about.  Without a callback every verdict is "normal". *)
Fixpoint asks (fn : option merge_fn) (path : bytes) (ps qs : list (bytes * ptr)) : list merge_op :=
  match qs with
  | [] => []
  | (k, new) :: r =>
      match pick same k ps with
      | Some old => let (path', op) := decide fn path MO_Normal k old new in op :: asks fn path' ps r
      | None => MO_Custom :: asks fn path ps r
      end
  end.
Fixpoint judged (ws : list (bytes * value)) (ops : list merge_op) : list (bytes * (value * merge_op)) :=
  match ws, ops with
  | (k, w) :: ws', op :: ops' => (k, (w, op)) :: judged ws' ops'
  | _, _ => []
  end.
Lemma asks_ext fn qs : forall path ps ps', (forall k p, In (k, p) qs -> pick same k ps' = pick same k ps) ->
  asks fn path ps' qs = asks fn path ps qs.
Proof.
  induction qs as [|[k p] qs IH]; intros path ps ps' H; cbn [asks]; auto.
  rewrite (H k p (or_introl eq_refl)).
  destruct (pick same k ps) as [old|].
  - destruct (decide fn path MO_Normal k old p). f_equal. apply IH. intros k' p' I. apply (H k' p'). right; auto.
  - f_equal. apply IH. intros k' p' I. apply (H k' p'). right; auto.
Qed.
Lemma judged_keys ws : forall ops k y, In (k, y) (judged ws ops) -> In (k, fst y) ws.
Proof.
  induction ws as [|[k w] ws IH]; intros [|op ops] k' y I; cbn [judged] in I; try (destruct I; fail).
  destruct I as [I|I]; [injection I as <- <-; left; reflexivity|right; eapply IH; eauto].
Qed.
Lemma asks_length fn qs : forall path ps, List.length (asks fn path ps qs) = List.length qs.
Proof.
  induction qs as [|[k p] qs IH]; intros path ps; cbn [asks]; auto. destruct (pick same k ps) as [old|]; [destruct (decide _ _ _ _ _ _)|];
    cbn [List.length]; rewrite IH; reflexivity.
Qed.
Lemma judged_distinct ws : forall ops, distinct_keys same ws -> distinct_keys same (judged ws ops).
Proof.
  induction ws as [|[k w] ws IH]; intros [|op ops] D; cbn [judged]; try constructor; inversion D as [|? ? H1 H2]; subst.
  - rewrite Forall_forall in *. intros [k' y] I. apply (H1 (k', fst y)). apply judged_keys in I. exact I.
  - apply IH; auto.
Qed.

(** What a verdict needs of the old value [q] with content [old]. *)
Definition allowed (s : st) (q : ptr) (old : value) (op : merge_op) : Prop :=
  match op with
  | MO_Normal => exists o, q = Some o /\ (5 <= o)%nat /\ vt_code TArray < vt_code (c_dt (hp s o)) /\ src_ok s (Some o) /\ clonable old
  | MO_Replace => q <> None
  | MO_Custom => True
  end.
(** Entries of [l] that meet a key still to come. *)
Definition meets (s : st) (l : nat) (cv : list (bytes * value)) (ws : list (bytes * (value * merge_op))) : Prop :=
  forall j k0 q old kw, nth_error (pairs s l) j = Some (k0, q) -> nth_error cv j = Some (k0, old) -> In kw ws ->
    same k0 (fst kw) = true -> allowed s q old (snd (snd kw)).
Definition coming (s : st) (m i : nat) (ws : list (bytes * value)) : Prop :=
  Forall2 (fun kp kv => fst kp = fst kv /\ rep (hp s) (snd kp) (snd kv)) (skipn i (c_kvs (hp s m))) ws.

Lemma src_ok_frame s s' q : (forall x, preach (hp s) q x -> hp s' x = hp s x) -> (forall x, live s x -> live s' x) -> src_ok s q -> src_ok s' q.
Proof.
  intros F V S0 y -> x X. assert (X' : preach (hp s') (Some y) x) by (exists y; auto).
  apply (preach_frame (hp s) (hp s') (Some y) F) in X'. rewrite (F x X'). destruct X' as (y' & Q & X'). injection Q as <-.
  destruct (S0 y eq_refl x X') as [A B]. auto.
Qed.

Lemma coming_step s s' l m cv i a ws T jx : minv s l m cv -> hp s' m = hp s m -> (forall x, live s x -> live s' x) ->
  (forall x, live s x -> x <> l -> T <> Some x -> hp s' x = hp s x) ->
  (forall o, T = Some o -> (5 <= o)%nat /\ nth_error (entries s l) jx = Some (Some o)) ->
  coming s m i (a :: ws) -> coming s' m (S i) ws.
Proof.
  intros MI HM LV FR TJ C. unfold coming in *. inversion C as [|kp kv kps ws' H1 H2 H3 H4]; subst. rewrite HM.
  assert (SK : skipn (S i) (c_kvs (hp s m)) = kps).
  { clear - H3. revert i H3. generalize (c_kvs (hp s m)). induction l as [|x l IH]; intros [|i] H; cbn [skipn] in *; try discriminate.
    - congruence.
    - apply IH. exact (eq_sym H3) || exact H. }
  rewrite SK. assert (SUB : forall kp', In kp' kps -> In (snd kp') (entries s m)).
  { intros kp' I. unfold entries. apply in_map. rewrite <- (firstn_skipn i (c_kvs (hp s m))), <- H3. apply in_or_app. right. right. auto. }
  clear C H3 SK. induction H2 as [|x y kps ws A B IH]; constructor.
  - destruct A as [A R]. split; [exact A|]. apply (rep_frame (hp s)); auto. intros z Z.
    eapply (src_frame s s' l m jx cv T MI LV FR TJ (snd x)); [apply SUB; left; auto|exact Z].
  - apply IH. intros; apply SUB; right; auto.
Qed.

Lemma meets_step s s' l m cv cv' k y ws T jx : minv s l m cv -> (forall x, live s x -> live s' x) ->
  (forall x, live s x -> x <> l -> T <> Some x -> hp s' x = hp s x) ->
  (forall o, T = Some o -> (5 <= o)%nat /\ nth_error (entries s l) jx = Some (Some o)) ->
  (forall kv, In kv ws -> same k (fst kv) = false) ->
  (forall kx q, nth_error (pairs s' l) jx = Some (kx, q) -> same kx k = true) ->
  (forall j, j <> jx -> (forall a b, nth_error (pairs s' l) j = Some a -> nth_error cv' j = Some b ->
     nth_error (pairs s l) j = Some a /\ nth_error cv j = Some b)) ->
  meets s l cv ((k, y) :: ws) -> meets s' l cv' ws.
Proof.
  intros MI LV FR TJ NK KX OLD ME j k0 q old kw Q1 Q2 I SM.
  assert (NJ : j <> jx).
  { intros ->. apply KX in Q1. rewrite (same_cong E EO _ _ (fst kw) Q1), (NK kw I) in SM. discriminate. }
  destruct (OLD j NJ _ _ Q1 Q2) as [P1 P2]. pose proof (ME j k0 q old kw P1 P2 (or_intror I) SM) as AL.
  unfold allowed in *. destruct (snd (snd kw)); auto.
  destruct AL as (o & -> & O5 & DO & SO & CO).
  pose proof (old_frame s s' l m jx cv T MI LV FR TJ j (Some o) NJ (nth_pair_entry _ _ _ _ _ P1)) as F.
  exists o. split; [auto|split; [auto|split; [|split; [|auto]]]].
  - rewrite (F o (preach_self _ o)). exact DO.
  - apply (src_ok_frame s); auto.
Qed.

Lemma pick_find {A} k (ps : list (bytes * A)) : pick same k ps =
  match find_key E ps k with Some i => match nth_error ps i with Some (_, q) => Some q | None => None end | None => None end.
Proof.
  induction ps as [|[k0 q] ps IH]; cbn [pick find_key]; auto. cbn [fst snd]. rewrite (HeapMap.same_sym E EO k k0). destruct (same k0 k); [reflexivity|].
  rewrite IH. destruct (find_key E ps k); reflexivity.
Qed.
Lemma pick_set_val {A} i (x : A) ps k k0 : (exists q, nth_error ps i = Some (k0, q)) -> same k k0 = false ->
  pick same k (set_val i x ps) = pick same k ps.
Proof.
  intros (q & Q) NS. unfold set_val. rewrite Q. revert i Q. induction ps as [|y ps IH]; intros [|i] Q; cbn [nth_error set_nth pick] in *; try discriminate.
  - injection Q as ->. cbn [fst]. rewrite NS. reflexivity.
  - destruct (same k (fst y)); auto.
Qed.
Lemma pick_app_other {A} k (ps : list (bytes * A)) k0 q : same k k0 = false -> pick same k (ps ++ [(k0, q)]) = pick same k ps.
Proof. intros NS. induction ps as [|y ps IH]; cbn [app pick fst]; [rewrite NS; reflexivity|]. destruct (same k (fst y)); auto. Qed.

(** How the pair list of the receiver changes: keys and pointers stay, but for replaced values. *)
Definition kept_pairs (ws : list (bytes * (value * merge_op))) (a b : bytes * ptr) : Prop :=
  fst a = fst b /\ (snd a = snd b \/ exists kw, In kw ws /\ same (fst a) (fst kw) = true /\ snd (snd kw) = MO_Replace).

Lemma merge_loop fn ws : forall s l m cv i path op, let js := judged ws (asks fn path (pairs s l) (skipn i (c_kvs (hp s m)))) in
  minv s l m cv -> coming s m i ws -> Forall (fun kv => clonable (snd kv)) ws ->
  distinct_keys same ws -> meets s l cv js -> (fn = None -> op = MO_Normal) ->
  exists n s' path' kept added, mergeObject E G n s path op l m i fn = Ok (path', s') /\
    minv s' l m (fold_left step js cv) /\ pairs s' l = kept ++ added /\ Forall2 (kept_pairs js) (pairs s l) kept /\ hp s' m = hp s m /\
    (forall x, live s x -> live s' x) /\
    (forall x, live s x -> x <> l -> ((5 <= x)%nat ->
       forall k0 kw, In (k0, Some x) (pairs s l) -> In kw js -> same k0 (fst kw) = true -> snd (snd kw) = MO_Custom) -> hp s' x = hp s x).
Proof.
  induction ws as [|[k w] ws IH]; intros s l m cv i path op js MI CM CL DW ME OP.
  - subst js. cbn [judged fold_left]. exists 1%nat, s, path, (pairs s l), []. assert (NE : nth_error (c_kvs (hp s m)) i = None).
    { unfold coming in CM. inversion CM as [Q|]; subst. apply nth_error_None. symmetry in Q.
      apply (f_equal (@List.length _)) in Q. rewrite skipn_length in Q. cbn in Q. lia. }
    rewrite merge_S, NE. rewrite app_nil_r.
    assert (FK : Forall2 (kept_pairs []) (pairs s l) (pairs s l)).
    { induction (pairs s l); constructor; auto. split; auto. }
    auto 9.
  - inversion CL as [|? ? CW CL']; subst. cbn [snd] in CW. inversion DW as [|? ? NK DW']; subst. rewrite Forall_forall in NK. cbn [fst] in NK.
    assert (NM : exists p, nth_error (c_kvs (hp s m)) i = Some (k, p) /\ rep (hp s) p w /\
       skipn i (c_kvs (hp s m)) = (k, p) :: skipn (S i) (c_kvs (hp s m)) /\
       (forall k' p', In (k', p') (skipn (S i) (c_kvs (hp s m))) -> exists w', In (k', w') ws)).
    { unfold coming in CM. inversion CM as [|[k1 p] kv kps ws' [A B] H2 H3 H4]; subst. cbn [fst snd] in *. subst k1. exists p.
      assert (SK : skipn (S i) (c_kvs (hp s m)) = kps /\ nth_error (c_kvs (hp s m)) i = Some (k, p)).
      { clear - H3. revert i H3. generalize (c_kvs (hp s m)). induction l as [|x l IH]; intros [|i] H; cbn [skipn nth_error] in *; try discriminate.
        - injection H as -> ->. auto.
        - apply IH. exact H. }
      destruct SK as [-> Q]. split; [exact Q|split; [exact B|split; [auto|]]].
      intros k' p' I. clear - H2 I. induction H2 as [|a b0 ka kb [A B] F IH]; [destruct I|]. destruct I as [->|I].
      - exists (snd b0). left. cbn [fst] in A. rewrite A. destruct b0; reflexivity.
      - destruct (IH I) as (w' & J). exists w'. right; auto. }
    destruct NM as (p & NM & RW & SK & TAIL).
    pose proof (listed_fst _ _ _ (mi_rep _ _ _ _ MI)) as LF. destruct (mi_rep _ _ _ _ MI) as [LEN RR].
    subst js. rewrite SK in ME |- *. cbn [asks] in ME |- *. rewrite pick_find in ME |- *.
    destruct (find_key E (pairs s l) k) as [idx|] eqn:FK.
    + pose proof FK as FK0. apply (find_key_some E) in FK as (k0 & q & NP & SM). rewrite NP in ME |- *.
      destruct (nth_error cv idx) as [[k0' old]|] eqn:NC.
      2:{ apply nth_error_None in NC. assert ((idx < List.length (pairs s l))%nat) by (apply nth_error_Some; congruence). lia. }
      assert (k0' = k0) by (symmetry; exact (proj1 (RR idx _ _ NP NC))). subst k0'.
      assert (DC : decide fn path op k q p = decide fn path MO_Normal k q p).
      { unfold decide. destruct fn; auto. rewrite OP; auto. }
      destruct (decide fn path MO_Normal k q p) as [path1 op1] eqn:DC1.
      cbn [judged] in ME |- *. set (js1 := judged ws (asks fn path1 (pairs s l) (skipn (S i) (c_kvs (hp s m))))) in *.
      assert (ALW : allowed s q old op1) by (exact (ME idx k0 q old (k, (w, op1)) NP NC (or_introl eq_refl) SM)).
      assert (NKJ : forall kv, In kv js1 -> same k (fst kv) = false).
      { intros [k' y] I. apply judged_keys in I. exact (NK _ I). }
      assert (OP1 : fn = None -> op1 = MO_Normal). { intros ->. unfold decide in DC1. congruence. }
      assert (STEP : step cv (k, (w, op1)) = set_val idx (joined old (w, op1)) cv).
      { unfold step. cbn [fst snd]. rewrite <- (find_key_fst _ _ k LF), FK0, NC. reflexivity. }
      (* one iteration, then the rest *)
      assert (REST : forall n0 s1 (T : option nat), (forall f, (n0 <= f)%nat ->
          mergeObject E G (S f) s path op l m i fn = mergeObject E G f s1 path1 op1 l m (S i) fn) ->
        minv s1 l m (set_val idx (joined old (w, op1)) cv) ->
        (exists q1, pairs s1 l = set_val idx q1 (pairs s l) /\ (q1 = q \/ op1 = MO_Replace)) ->
        hp s1 m = hp s m -> (forall x, live s x -> live s1 x) ->
        (forall x, live s x -> x <> l -> T <> Some x -> hp s1 x = hp s x) ->
        (forall y, T = Some y -> (5 <= y)%nat /\ nth_error (entries s l) idx = Some (Some y) /\ op1 <> MO_Custom) ->
        exists n s' path' kept added, mergeObject E G n s path op l m i fn = Ok (path', s') /\
          minv s' l m (fold_left step ((k, (w, op1)) :: js1) cv) /\ pairs s' l = kept ++ added /\
          Forall2 (kept_pairs ((k, (w, op1)) :: js1)) (pairs s l) kept /\ hp s' m = hp s m /\
          (forall x, live s x -> live s' x) /\
          (forall x, live s x -> x <> l -> ((5 <= x)%nat -> forall k0 kw, In (k0, Some x) (pairs s l) -> In kw ((k, (w, op1)) :: js1) ->
             same k0 (fst kw) = true -> snd (snd kw) = MO_Custom) -> hp s' x = hp s x)).
      { intros n0 s1 T ST MI1 (q1 & P1 & PQ) M1 V1 F1 TJ1.
        assert (TJ : forall y, T = Some y -> (5 <= y)%nat /\ nth_error (entries s l) idx = Some (Some y)).
        { intros y Q. destruct (TJ1 y Q) as (A & B & _). auto. }
        assert (NPX : exists q', nth_error (pairs s l) idx = Some (k0, q')) by eauto.
        assert (JS : judged ws (asks fn path1 (pairs s1 l) (skipn (S i) (c_kvs (hp s1 m)))) = js1).
        { unfold js1. rewrite M1. f_equal. apply asks_ext. intros k' p' I. rewrite P1. apply pick_set_val with (k0 := k0); [eauto|].
          destruct (TAIL k' p' I) as (w' & J). pose proof (NK _ J) as X. cbn [fst] in X.
          rewrite (HeapMap.same_sym E EO), (same_cong E EO _ _ k' SM). exact X. }
        destruct (IH s1 l m _ (S i) path1 op1 MI1 (coming_step _ _ _ _ _ _ _ _ _ _ MI M1 V1 F1 TJ CM) CL' DW') as (n & s' & path' & kept & added & R & MI' & P' & KP & M' & V' & F').
        { rewrite JS. apply (meets_step s s1 l m cv _ k (w, op1) js1 T idx); auto.
          - intros kx q' Q. rewrite P1, nth_set_val, Nat.eqb_refl, NP in Q. injection Q as <- _. exact SM.
          - intros j NJ a b Qa Qb. rewrite P1, nth_set_val in Qa. rewrite nth_set_val in Qb. rewrite (proj2 (Nat.eqb_neq j idx) NJ) in Qa, Qb. auto. }
        { exact OP1. }
        rewrite JS in MI', KP, F'.
        exists (S (n0 + n))%nat, s', path', kept, added. rewrite ST by lia. cbn [fold_left]. rewrite STEP.
        split; [apply (merge_mono fn n _ _ _ _ _ _ _ R); lia|]. split; [exact MI'|]. split; [exact P'|]. split.
        { rewrite P1 in KP. clearbody js1. clear - KP NP SM PQ. unfold set_val in KP. rewrite NP in KP.
          assert (LIFT : forall a b, kept_pairs js1 a b -> kept_pairs ((k, (w, op1)) :: js1) a b).
          { intros a b [A [B|(kw & I & B)]]; (split; [exact A|]); [left; exact B|right; exists kw; split; [right; exact I|exact B]]. }
          revert idx kept NP KP. induction (pairs s l) as [|a ps IH]; intros [|idx] kept NP KP; cbn [nth_error set_nth] in *; try discriminate;
            inversion KP as [|? b0 ? kept' H1 H2]; subst; constructor; eauto.
          - injection NP as ->. destruct H1 as [H1 H1']. cbn [fst snd] in *. split; [exact H1|]. cbn [fst snd].
            destruct PQ as [->| ->]; [destruct H1' as [H1'|(kw & I & B)]; [left; exact H1'|right; exists kw; split; [right; exact I|exact B]]|].
            right. exists (k, (w, MO_Replace)). split; [left; reflexivity|]. cbn [fst snd]. auto.
          - clear - H2 LIFT. induction H2; constructor; auto. }
        split; [congruence|]. split; [intros x X; apply V', V1, X|]. intros x X Xl NX.
        assert (HX : hp s1 x = hp s x).
        { apply F1; auto. intros Q. destruct (TJ1 x Q) as (X5 & QX & NC'). apply NC'.
          assert (q = Some x). { pose proof (nth_pair_entry _ _ _ _ _ NP) as B. congruence. } subst q.
          apply (NX X5 k0 (k, (w, op1))); [eapply nth_error_In; eauto|left; reflexivity|exact SM]. }
        rewrite F'; auto. intros X5 k1 kw J1 J2 SM1. rewrite P1 in J1.
        apply In_nth_error in J1 as (j & J1). rewrite nth_set_val in J1. destruct (Nat.eqb_spec j idx) as [Qj|NJ].
        - change (match nth_error (pairs s l) idx with Some (k, _) => Some (k, q1) | None => None end = Some (k1, Some x)) in J1.
          rewrite NP in J1. injection J1 as <- _. rewrite (same_cong E EO _ _ (fst kw) SM), (NKJ kw J2) in SM1. discriminate.
        - apply (NX X5 k1 kw); [eapply nth_error_In; eauto|right; exact J2|exact SM1]. }
      destruct op1.
      * destruct (custom_one s l m cv i k p k0 q idx MI NM FK0 NP) as (s1 & ST & MI1 & P1 & M1 & V1 & F1).
        assert (SV : set_val idx (joined old (w, MO_Custom)) cv = cv).
        { unfold joined. cbn [fst snd]. exact (set_val_same idx old cv k0 NC). }
        apply (REST O s1 None); auto.
        -- rewrite SV. exact MI1.
        -- exists q. split; [|auto]. rewrite P1. symmetry. exact (set_val_same idx (q : ptr) (pairs s l) k0 NP).
        -- discriminate.
      * destruct q as [o|]; [|exfalso; apply ALW; reflexivity].
        destruct (replace_one s l m cv i k p w k0 o old idx MI NM RW CW FK0 NP NC) as (n0 & s1 & r & ST & MI1 & P1 & M1 & V1 & F1).
        apply (REST n0 s1 (if (o <? 5)%nat then None else Some o)); auto.
        -- eauto.
        -- intros x X Xl Xo. apply F1; auto. intros X5 ->. rewrite (proj2 (Nat.ltb_ge o 5) X5) in Xo. auto.
        -- intros y Q. destruct (Nat.ltb_spec o 5); [discriminate|]. injection Q as <-. split; [auto|split; [eapply nth_pair_entry; eauto|discriminate]].
      * destruct ALW as (o & -> & O5 & DO & SO & CO).
        destruct (collide s l m cv i k p w k0 o old idx MI NM RW CW FK0 NP NC CO O5 DO SO) as (n0 & s1 & ST & MI1 & P1 & M1 & V1 & F1).
        apply (REST n0 s1 (Some o)).
        -- intros f Fu. apply ST; auto.
        -- exact MI1.
        -- exists (Some o : ptr). split; [|auto]. rewrite P1. symmetry. exact (set_val_same idx (Some o : ptr) (pairs s l) k0 NP).
        -- exact M1.
        -- exact V1.
        -- intros x X Xl Xo. apply F1; [auto|auto|congruence].
        -- intros y Q. injection Q as <-. split; [auto|split; [eapply nth_pair_entry; eauto|discriminate]].
    + destruct (append_one s l m cv i k p w MI NM RW CW FK) as (n0 & s1 & r & ST & MI1 & P1 & M1 & V1 & F1).
      cbn [judged] in ME |- *. set (js1 := judged ws (asks fn path (pairs s l) (skipn (S i) (c_kvs (hp s m))))) in *.
      assert (NKJ : forall kv, In kv js1 -> same k (fst kv) = false).
      { intros [k' y] I. apply judged_keys in I. exact (NK _ I). }
      assert (FR : forall x, live s x -> x <> l -> None <> Some x -> hp s1 x = hp s x) by (intros x X Xl _; apply F1; auto).
      assert (TJ : forall y, None = Some y -> (5 <= y)%nat /\ nth_error (entries s l) (List.length (pairs s l)) = Some (Some y)) by discriminate.
      assert (JS : judged ws (asks fn path (pairs s1 l) (skipn (S i) (c_kvs (hp s1 m)))) = js1).
      { unfold js1. rewrite M1. f_equal. apply asks_ext. intros k' p' I. rewrite P1. apply pick_app_other.
        destruct (TAIL k' p' I) as (w' & J). pose proof (NK _ J) as X. cbn [fst] in X. rewrite (HeapMap.same_sym E EO). exact X. }
      assert (STEP : step cv (k, (w, MO_Custom)) = cv ++ [(k, strip w)]).
      { unfold step. cbn [fst snd]. rewrite <- (find_key_fst _ _ k LF), FK. reflexivity. }
      destruct (IH s1 l m _ (S i) path op MI1 (coming_step _ _ _ _ _ _ _ _ _ _ MI M1 V1 FR TJ CM) CL' DW') as (n & s' & path' & kept & added & R & MI' & P' & KP & M' & V' & F').
      { rewrite JS. apply (meets_step s s1 l m cv _ k (w, MO_Custom) js1 None (List.length (pairs s l))); auto.
        - intros kx q Q. rewrite P1, nth_error_app2, Nat.sub_diag in Q by lia. injection Q as <- _. apply (same_refl E).
        - intros j NJ a b Qa Qb. assert (LT : (j < List.length (pairs s1 l))%nat) by (apply nth_error_Some; congruence).
          rewrite P1, app_length in LT. cbn [List.length] in LT. rewrite P1 in Qa. rewrite nth_error_app1 in Qa by lia. rewrite nth_error_app1 in Qb by lia. auto. }
      { exact OP. }
      rewrite JS in MI', KP, F'. rewrite P1 in KP. apply Forall2_app_inv_l in KP as (kept1 & kept2 & KP1 & KP2 & ->).
      exists (S (n0 + n))%nat, s', path', kept1, (kept2 ++ added). rewrite ST by lia. cbn [fold_left]. rewrite STEP.
      split; [apply (merge_mono fn n _ _ _ _ _ _ _ R); lia|]. split; [exact MI'|]. split; [rewrite P', <- app_assoc; auto|]. split.
      { clearbody js1. clear - KP1. induction KP1 as [|a b0 ka kb [A B] F IHF]; constructor; auto. split; [exact A|].
        destruct B as [B|(kw & I & B)]; [left; exact B|right; exists kw; split; [right; exact I|exact B]]. }
      split; [congruence|].
      split; [intros x X; apply V', V1, X|]. intros x X Xl NX. rewrite F'; auto.
      intros X5 k1 kw J1 J2 SM1. rewrite P1 in J1. apply in_app_or in J1 as [J1|[J1|[]]].
      * apply (NX X5 k1 kw J1); [right; exact J2|exact SM1].
      * injection J1 as -> _. rewrite (NKJ kw J2) in SM1. discriminate.
Qed.

(** ** The theorem *)
(** Values that [mergeObject] can turn into an array in place. *)
Definition scalar (v : value) : Prop :=
  match v with VString _ | VRawString _ | VInt _ _ | VFloat _ | VDouble _ | VDateTime _ => True | _ => False end.
(** No cell is shared by two entries of [l], nor by [l] and [m] (the constants excepted). *)
Definition separate (s : st) (l m : nat) : Prop :=
  (forall i j p q, i <> j -> nth_error (entries s l) i = Some p -> nth_error (entries s l) j = Some q -> apart s p q) /\
  (forall x, reach (hp s) l x -> reach (hp s) m x -> (x < 5)%nat).

Lemma rep_obj_inv h l u kvs : rep h (Some l) (VObject u kvs) -> c_dt (h l) = TObject /\ u = c_unesc (h l) /\
  Forall2 (fun a b => fst a = fst b /\ rep h (snd a) (snd b)) (c_kvs (h l)) kvs.
Proof. intros R. inversion R; subst. auto. Qed.
Lemma listed_view h u kps kvs : Forall2 (fun a b => fst a = fst b /\ rep h (snd a) (snd b)) kps kvs ->
  listed h (unescape_keys E u kps) (unescape_keys E u kvs).
Proof.
  intros F. assert (F' : Forall2 (fun a b => fst a = fst b /\ rep h (snd a) (snd b)) (unescape_keys E u kps) (unescape_keys E u kvs)).
  { unfold unescape_keys. destruct u; auto. induction F as [|a b ka kb [A B] F IH]; cbn [map]; constructor; auto. cbn [fst snd]. rewrite A. auto. }
  split; [apply (F2_length _ _ _ F')|]. clear F. induction F' as [|a b ka kb A F IH]; intros [|j] x y Qx Qy; cbn [nth_error] in *; try discriminate.
  - congruence.
  - eapply IH; eauto.
Qed.
Lemma listed_back h u kps : forall cv, listed h (unescape_keys E u kps) cv ->
  exists kvs, Forall2 (fun a b => fst a = fst b /\ rep h (snd a) (snd b)) kps kvs /\ unescape_keys E u kvs = cv.
Proof.
  unfold unescape_keys. destruct u.
  - intros cv [L R]. exists cv. split; auto. revert cv L R. induction kps as [|a kps IH]; intros [|b cv] L R; try discriminate; constructor.
    + apply (R O); reflexivity.
    + apply IH; [cbn in L; lia|]. intros j. apply (R (S j)).
  - induction kps as [|a kps IH]; intros [|b cv] [L R]; try discriminate.
    + exists []. split; [constructor|reflexivity].
    + destruct (IH cv) as (kvs & F & Q). { split; [cbn in *; lia|]. intros j. apply (R (S j)). }
      destruct (R O _ _ eq_refl eq_refl) as [A B]. cbn [fst snd] in A, B.
      exists ((fst a, snd b) :: kvs). split; [constructor; auto|]. cbn [map fst snd]. rewrite Q, A. destruct b; reflexivity.
Qed.
Lemma const_scalar s o v : wf s -> rep (hp s) (Some o) v -> scalar v -> (5 <= o)%nat /\ vt_code TArray < vt_code (c_dt (hp s o)).
Proof.
  intros W R SV. inversion R as [| | | l D| l D| l D| l D| l D| l D| | | | | | |]; subst; try contradiction;
    (split; [|rewrite D; reflexivity]); destruct (Nat.lt_ge_cases o 5) as [L|L]; auto;
    rewrite (i_const _ _ _ W o L) in D; destruct o as [|[|[|[|[|]]]]]; try discriminate; lia.
Qed.

(** What a verdict needs of the content of the old value. *)
Definition mergeable (old : value) (op : merge_op) : Prop :=
  match op with MO_Normal => scalar old | MO_Replace => old <> VNilP | MO_Custom => True end.

Theorem merge_objects_by fn s l m u vs u' ws : wf s ->
  rep (hp s) (Some l) (VObject u vs) -> rep (hp s) (Some m) (VObject u' ws) ->
  plive s (Some l) -> cloneable_graph s m -> separate s l m ->
  distinct_keys same (unescape_keys E u vs) -> distinct_keys same ws ->
  Forall (fun kv => clonable (snd kv)) ws ->
  let js := judged ws (asks fn [] (pairs s l) (c_kvs (hp s m))) in
  (forall kv kw, In kv (unescape_keys E u vs) -> In kw js -> same (fst kv) (fst kw) = true -> mergeable (snd kv) (snd (snd kw))) ->
  exists n0, forall fuel, (n0 <= fuel)%nat -> exists s' u1 vs1 kept added,
    MergeWith E G fuel s (Some l) (Some m) fn = Ok s' /\
    rep (hp s') (Some l) (VObject u1 vs1) /\ unescape_keys E u1 vs1 = union_by same (unescape_keys E u vs) js /\
    rep (hp s') (Some m) (VObject u' ws) /\
    pairs s' l = kept ++ added /\ Forall2 (kept_pairs js) (pairs s l) kept /\
    (forall x, live s x -> x <> l -> live s' x /\
       ((forall k0 kw, In (k0, Some x) (pairs s l) -> In kw js -> same k0 (fst kw) = true -> snd (snd kw) = MO_Custom) -> hp s' x = hp s x)).
Proof.
  intros W RL RM PL CG [SEP DIS] DV DW CL js SC.
  destruct (rep_obj_inv _ _ _ _ RL) as (Dl & -> & FL). destruct (rep_obj_inv _ _ _ _ RM) as (Dm & -> & FM).
  pose proof (good_5 s l W (or_introl Dl)) as L5. pose proof (good_5 s m W (or_introl Dm)) as M5.
  assert (SEE : forall z p y, c_dt (hp s z) = TObject -> In p (entries s z) -> preach (hp s) p y -> reach (hp s) z y).
  { intros z p y D I (y' & -> & X). eapply reach_trans; [apply reach_child|exact X]. unfold sees. rewrite D. exact I. }
  assert (SELF : forall p, In p (entries s l) -> ~ preach (hp s) p l).
  { intros p I (y & -> & X). apply (rep_acyclic G (hp s) l _ y RL); auto. unfold sees. rewrite Dl. exact I. }
  pose proof (listed_view (hp s) (c_unesc (hp s l)) _ _ FL) as LI. fold (pairs s l) in LI.
  assert (NE : m <> l). { intros ->. pose proof (DIS l (reach_refl _ _) (reach_refl _ _)). lia. }
  assert (MI : minv s l m (unescape_keys E (c_unesc (hp s l)) vs)).
  { constructor.
    - split; [exact W|split; [apply PL, preach_self|split; [exact Dl|]]]. intros I. apply (SELF _ I), preach_self.
    - pose proof (listed_fst _ _ _ LI) as LF. unfold distinct_keys in *.
      assert (X : forall (a : list (bytes * value)) (b : list (bytes * ptr)), map fst a = map fst b ->
        ForallOrdPairs (fun a b => same (fst a) (fst b) = false) a -> ForallOrdPairs (fun a b => same (fst a) (fst b) = false) b).
      { clear. induction a as [|x a IH]; intros [|y b] M FA; try discriminate; [constructor|]. cbn [map] in M. injection M as M1 M2.
        inversion FA as [|? ? H1 H2]; subst. constructor; [|apply IH; auto]. rewrite <- M1.
        clear - M2 H1. revert b M2. induction a as [|z a IH]; intros [|t b] M2; try discriminate; constructor;
          cbn [map] in M2; injection M2 as M3 M4; inversion H1; subst; [rewrite <- M3; auto|apply IH; auto]. }
      eapply X; [symmetry; exact LF|exact DV].
    - exact LI.
    - intros p I x X. apply PL. exists l. split; [auto|]. eapply SEE; eauto.
    - exact SELF.
    - exact SEP.
    - split; [exact NE|split; [apply (CG m (reach_refl _ _))|exact M5]].
    - intros p I. split; [|split].
      + intros y -> x X. apply CG. eapply SEE; [exact Dm|exact I|exists y; auto].
      + intros X. pose proof (DIS l (reach_refl _ _) (SEE m p l Dm I X)). lia.
      + intros q J x X Y. apply DIS; [eapply SEE; eauto|eapply SEE; eauto].
    - intros q J X. pose proof (DIS m (SEE l q m Dl J X) (reach_refl _ _)). lia. }
  destruct (merge_loop fn ws s l m _ O [] MO_Normal MI) as (n & s' & path' & kept & added & R & MI' & P' & KP & M' & V' & F').
  - unfold coming. cbn [skipn]. exact FM.
  - exact CL.
  - exact DW.
  - cbn [skipn]. fold js. intros j k0 q old kw Q1 Q2 I SM.
    pose proof (SC (k0, old) kw (nth_error_In _ _ Q2) I SM) as SV. cbn [snd] in SV.
    pose proof (proj2 (proj2 LI j _ _ Q1 Q2)) as RO. cbn [snd] in RO.
    unfold allowed. destruct (snd (snd kw)); cbn [mergeable] in SV; auto.
    { intros ->. apply SV. inversion RO; auto. }
    destruct q as [o|]; [|inversion RO; subst; contradiction].
    exists o. destruct (const_scalar s o old W RO SV) as [O5 DO]. split; [auto|split; [auto|split; [auto|split]]].
    + intros y Q x X. injection Q as <-. 
      assert (x = o) as ->.
      { apply reach_cases in X as [->|(y & Y & _)]; auto. unfold sees in Y. destruct (c_dt (hp s o)) eqn:DD; try contradiction; exfalso; clear - DO; cbn in DO; lia. }
      split; [apply PL; exists l; split; [auto|]; apply reach_child; unfold sees; rewrite Dl|].
      * apply nth_pair_entry in Q1. eapply nth_error_In; eauto.
      * intros C. exfalso. inversion RO; subst; try contradiction;
          match goal with H : c_dt (hp s o) = _ |- _ => rewrite H in C; cbn in C; lia end.
    + destruct old; try contradiction; constructor.
  - auto.
  - cbn [skipn] in MI', KP, F'. fold js in MI', KP, F'.
    exists n. intros fuel Fu. destruct (listed_back (hp s') (c_unesc (hp s' l)) (c_kvs (hp s' l)) _ (mi_rep _ _ _ _ MI')) as (kvs & FK & UK).
    exists s', (c_unesc (hp s' l)), kvs, kept, added.
    split. { unfold MergeWith. rewrite Dl, Dm. change (vt_eqb TObject TObject) with true. cbn [negb orb].
      change (vt_code TArray <? vt_code TObject) with false. cbv iota. rewrite (merge_mono fn n _ _ _ _ _ _ _ R) by lia. reflexivity. }
    split; [constructor; [apply (mi_good _ _ _ _ MI')|exact FK]|].
    split; [rewrite UK; apply fold_union; auto; apply judged_distinct; auto|].
    split.
    { assert (SRC : forall x, reach (hp s) m x -> hp s' x = hp s x).
      { intros x X. destruct (Nat.eq_dec x l) as [->|Xl]; [pose proof (DIS l (reach_refl _ _) X); lia|].
        apply F'; auto; [apply (CG x X)|]. intros X5 k0 kw J1 J2 SM. exfalso.
        assert (RX : reach (hp s) l x). { eapply SEE; [exact Dl| |apply preach_self]. rewrite <- entries_pairs. apply (in_map snd) in J1. exact J1. }
        pose proof (DIS x RX X). lia. }
      apply (rep_frame (hp s)); auto. intros x (y & Q & X). injection Q as <-. auto. }
    split; [exact P'|]. split; [exact KP|]. intros x X Xl. split; [auto|]. intros NX. apply F'; auto.
Qed.

Lemma judged_no_fn (qs : list (bytes * ptr)) : forall (ws : list (bytes * value)) path ps, map fst qs = map fst ws ->
  judged ws (asks None path ps qs) =
  map (fun kv => (fst kv, (snd kv, match pick same (fst kv) ps with Some _ => MO_Normal | None => MO_Custom end))) ws.
Proof.
  induction qs as [|[k p] qs IH]; intros [|[k' w] ws] path ps M; try discriminate; auto. cbn [map fst] in M. injection M as -> M.
  cbn [map asks fst snd]. destruct (pick same k' ps); cbn [decide judged]; rewrite (IH ws path ps M); reflexivity.
Qed.
(** The verdict on a pair without a counterpart is irrelevant. *)
Lemma union_by_ext v (w w' : list (bytes * (value * merge_op))) :
  Forall2 (fun a b => fst a = fst b /\ fst (snd a) = fst (snd b) /\
    (snd (snd a) = snd (snd b) \/ forall kv, In kv v -> same (fst kv) (fst a) = false)) w w' ->
  union_by same v w = union_by same v w'.
Proof.
  intros F. unfold union_by. f_equal.
  - apply map_ext_in. intros kv I. f_equal.
    induction F as [|a b0 ka kb (A & B & C) F IH]; cbn [pick]; auto. rewrite <- A.
    destruct (same (fst kv) (fst a)) eqn:SM; auto. destruct C as [C|C]; [|rewrite (C kv I) in SM; discriminate].
    destruct a as [ak [av ao]], b0 as [bk [bv bo]]. cbn [fst snd] in *. subst. reflexivity.
  - induction F as [|a b0 ka kb (A & B & C) F IH]; cbn [filter map]; auto. rewrite <- A.
    destruct (negb _); cbn [map]; rewrite IH; [|reflexivity]. rewrite A, B. reflexivity.
Qed.

Theorem merge_objects s l m u vs u' ws : wf s ->
  rep (hp s) (Some l) (VObject u vs) -> rep (hp s) (Some m) (VObject u' ws) ->
  plive s (Some l) -> cloneable_graph s m -> separate s l m ->
  distinct_keys same (unescape_keys E u vs) -> distinct_keys same ws ->
  Forall (fun kv => clonable (snd kv)) ws ->
  (forall kv kw, In kv (unescape_keys E u vs) -> In kw ws -> same (fst kv) (fst kw) = true -> scalar (snd kv)) ->
  exists n0, forall fuel, (n0 <= fuel)%nat -> exists s' u1 vs1 added,
    MergeWith E G fuel s (Some l) (Some m) None = Ok s' /\
    rep (hp s') (Some l) (VObject u1 vs1) /\ unescape_keys E u1 vs1 = union same (unescape_keys E u vs) ws /\
    rep (hp s') (Some m) (VObject u' ws) /\
    pairs s' l = pairs s l ++ added /\
    (forall x, live s x -> x <> l -> live s' x /\
       ((forall k0 kw, In (k0, Some x) (pairs s l) -> In kw ws -> same k0 (fst kw) = false) -> hp s' x = hp s x)).
Proof.
  intros W RL RM PL CG SEP DV DW CL SC.
  destruct (rep_obj_inv _ _ _ _ RL) as (Dl & Ul & FL). destruct (rep_obj_inv _ _ _ _ RM) as (Dm & Um & FM).
  assert (KM : map fst (c_kvs (hp s m)) = map fst ws).
  { clear - FM. induction FM as [|a b0 ka kb [A B] F IH]; cbn [map]; congruence. }
  pose proof (judged_no_fn (c_kvs (hp s m)) ws [] (pairs s l) KM) as JQ.
  assert (LF : map fst (pairs s l) = map fst (unescape_keys E u vs)).
  { rewrite Ul. apply (listed_fst (hp s)). apply listed_view. exact FL. }
  destruct (merge_objects_by None s l m u vs u' ws W RL RM PL CG SEP DV DW CL) as (n0 & H).
  { rewrite JQ. intros kv kw I J SM. apply in_map_iff in J as (kw0 & <- & J). cbn [fst snd] in *.
    pose proof (SC kv kw0 I J SM) as S0. destruct (pick same (fst kw0) (pairs s l)); [exact S0|exact Logic.I]. }
  exists n0. intros fuel Fu. destruct (H fuel Fu) as (s' & u1 & vs1 & kept & added & MW & R1 & UK & R2 & P' & KP & FR).
  rewrite JQ in *. exists s', u1, vs1, added. split; [exact MW|]. split; [exact R1|]. split.
  { rewrite UK, union_is_union_by. apply union_by_ext. unfold all_normal. clear - LF EO.
    induction ws as [|kw ws IH]; cbn [map]; constructor; auto. cbn [fst snd]. split; [auto|split; [auto|]].
    destruct (pick same (fst kw) (pairs s l)) eqn:PK; [left; reflexivity|right]. intros kv I.
    assert (J : exists q, In (fst kv, q) (pairs s l)).
    { apply (in_map fst) in I. rewrite <- LF in I. apply in_map_iff in I as ([k q] & <- & J). exists q. exact J. }
    destruct J as (q & J). destruct (same (fst kv) (fst kw)) eqn:SM; auto. exfalso. clear - PK J SM EO.
    induction (pairs s l) as [|x ps IH]; [destruct J|]. cbn [pick] in PK. destruct (same (fst kw) (fst x)) eqn:SX; [discriminate|].
    destruct J as [->|J]; auto. cbn [fst] in SX. rewrite (HeapMap.same_sym E EO) in SX. congruence. }
  split; [exact R2|]. split.
  { rewrite P'. f_equal. clear - KP. induction KP as [|a b0 ka kb [A B] F IH]; auto. f_equal; [|exact IH].
    destruct B as [B|(kw & I & _ & B)].
    - destruct a, b0; cbn in *; congruence.
    - exfalso. apply in_map_iff in I as (kw0 & <- & I). cbn [snd] in B. destruct (pick _ _ _); discriminate. }
  intros x X Xl. destruct (FR x X Xl) as [A B]. split; [exact A|]. intros NX. apply B. intros k0 kw J1 J2 SM.
  apply in_map_iff in J2 as (kw0 & <- & J2). cbn [fst snd] in *. rewrite (NX k0 kw0 J1 J2) in SM. discriminate.
Qed.
End Obj.
