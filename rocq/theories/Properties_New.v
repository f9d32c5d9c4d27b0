(** Property C88: new and reset values are empty.  Each theorem is followed by what it assumes and by a
    concrete case. *)
From Coq Require Import String.
From Verif Require Import Base Values Tactics Env0 JsonModel JsonSpec HeapModel MsgLoadModel JsonLoadModel HeapSpec MsgLoadSpec JsonLoadSpec
  HeapBase HeapConf HeapGet HeapCalls HeapForce HeapTree HeapClone HeapBuild JsonLoadThms HeapView Properties_Heap Properties_MsgLoad
  Properties_JsonLoad Properties_Map Properties_Merge.
Local Notation N := none_set.

(** ** C88 *)
(** The empty value of each type. *)
Definition zero_of (t : vtype) : value :=
  match t with
  | TObject => VObject false [] | TArray => VArray [] | TString => VString [] | TRaw => VRawString []
  | TInt => VInt 0 0 | TFloat => VFloat 0 | TDouble => VDouble 0 | TDateTime => VDateTime 0
  | TBinary => VBinary 0 [] | TExBinary => VExBinary 0 []
  | TNull => VNull | TTrue => VTrue | TFalse => VFalse | TNan => VNan | TInf => VInf
  end.
(** The types whose value sits in [simpleV]. *)
Definition numeric (t : vtype) : Prop := match t with TInt | TFloat | TDouble | TDateTime => True | _ => False end.
(** The types of the shared constants. *)
Definition fixed (t : vtype) : Prop := match t with TNull | TTrue | TFalse | TNan | TInf => True | _ => False end.
(** The value the 8 bytes [n] make in the type [t]. *)
Definition number_of (t : vtype) (n : Z) : value :=
  match t with
  | TInt => VInt 0 (to_i64 n) | TFloat => VFloat n | TDouble => VDouble n | TDateTime => VDateTime n | _ => zero_of t
  end.
(** Between [s] and [s'] the value [l] came into being: it was not in use, is now, has no elements, and all
    that was in use is as before. *)
Definition born (s : st) (l : nat) (s' : st) : Prop :=
  wf s' /\ (5 <= l)%nat /\ ~ live s l /\ live s' l /\ (forall x, live s x -> hp s' x = hp s x /\ live s' x) /\
  (forall x, reach (hp s') l x -> x = l).

Lemma clean_rep h l t : clean (h l) t -> (~ numeric t \/ c_sv (h l) = 0) -> rep h (Some l) (zero_of t).
Proof.
  intros (D & X & U & K & S & B & A) Q.
  destruct t; cbn [zero_of]; try (destruct Q as [[]|Q]; [exact I|]).
  - rewrite <- U. apply rep_obj; auto. rewrite K. constructor.
  - apply rep_arr; auto. rewrite A. constructor.
  - rewrite <- S. apply rep_str; auto.
  - rewrite <- S. apply rep_raw; auto.
  - replace (VInt 0 0) with (VInt (c_ext (h l)) (to_i64 (c_sv (h l)))) by (rewrite X, Q; reflexivity). apply rep_int; auto.
  - rewrite <- Q. apply rep_flt; auto.
  - rewrite <- Q. apply rep_dbl; auto.
  - rewrite <- Q. apply rep_dat; auto.
  - replace (VBinary 0 []) with (VBinary (c_ext (h l)) (c_bin (h l))) by (rewrite X, B; reflexivity). apply rep_bin; auto.
  - replace (VExBinary 0 []) with (VExBinary (c_ext (h l)) (c_bin (h l))) by (rewrite X, B; reflexivity). apply rep_exb; auto.
  - apply rep_null; auto.
  - apply rep_true; auto.
  - apply rep_false; auto.
  - apply rep_nan; auto.
  - apply rep_inf; auto.
Qed.
Lemma clean_number h l t : clean (h l) t -> rep h (Some l) (number_of t (c_sv (h l))).
Proof.
  intros C. destruct t; try (apply (clean_rep h l _ C); left; exact (fun F => F)); destruct C as (D & X & _); cbn [number_of].
  - rewrite <- X at 1. apply rep_int; auto.
  - apply rep_flt; auto.
  - apply rep_dbl; auto.
  - apply rep_dat; auto.
Qed.
Lemma reach_leaf h l x : (forall y, ~ sees (h l) y) -> reach h l x -> x = l.
Proof. intros NS R. apply reach_cases in R as [->|(y & S & _)]; [reflexivity|]. destruct (NS y S). Qed.
Lemma new_born s c t : wf s -> clean c t -> c_own c = None ->
  born s (nx s) (mkSt (upd (hp s) (nx s) c) (S (nx s)) (cs s) (nc s) (pl s)).
Proof.
  intros W C O. pose proof (i_nx _ _ _ W) as N5.
  assert (NC : forall x, ~ child c x). { intros x [X|X]; destruct C as (_ & _ & _ & K & _ & _ & A); rewrite ?K, ?A in X; destruct X. }
  destruct (tr_new N N s c W NC O) as [T OL].
  split; [apply T|]. split; [lia|]. split; [intros [L _]; lia|]. split.
  { split; cbn [nx nc cs]; [lia|]. intros k K X. apply In_skipn in X.
    destruct (i_cache _ _ _ W k K) as (_ & _ & _ & F). rewrite Forall_forall in F. apply F in X. lia. }
  split.
  - intros x [L1 L2]. cbn [hp]. split; [apply upd_other; lia|]. split; [cbn [nx]; lia|exact L2].
  - intros x. apply reach_leaf. cbn [hp]. rewrite upd_same. intros y. apply (clean_leaf _ _ y C).
Qed.
Lemma const_rep s l : wf s -> (l < 5)%nat -> rep (hp s) (Some l) (zero_of (const_type l)).
Proof.
  intros W L. pose proof (i_const _ _ _ W l L) as D.
  destruct l as [|[|[|[|[|l]]]]]; try lia; cbn [const_type zero_of] in *; constructor; exact D.
Qed.

(** [NewValue(t)]: the shared constant of [t] if there is one, else a new value outside every cache; it reads
    as the empty value of [t]. *)
Theorem C88_value : forall s t l s', wf s -> NewValue s t = (l, s') ->
  rep (hp s') (Some l) (zero_of t) /\ (fixed t -> (l < 5)%nat /\ s' = s) /\ (~ fixed t -> born s l s' /\ c_own (hp s' l) = None).
Proof.
  intros s t l s' W H.
  assert (B : forall c, clean c t -> c_own c = None -> c_sv c = 0 ->
    (nx s, mkSt (upd (hp s) (nx s) c) (S (nx s)) (cs s) (nc s) (pl s)) = (l, s') -> ~ fixed t ->
    rep (hp s') (Some l) (zero_of t) /\ (fixed t -> (l < 5)%nat /\ s' = s) /\ (~ fixed t -> born s l s' /\ c_own (hp s' l) = None)).
  { intros c C O Z Q NF. injection Q as <- <-. split; [|split; [intros F; destruct (NF F)|]].
    - apply clean_rep; cbn [hp]; rewrite upd_same; auto.
    - intros _. split; [apply (new_born s c t W C O)|]. cbn [hp]. rewrite upd_same. exact O. }
  destruct t;
    try (apply (B _ (clean_reset zero_cell _)); [reflexivity|reflexivity|exact H|intros []]; fail);
    injection H as <- <-;
    (split; [|split; [intros _; split; [cbv; lia|reflexivity]|intros F; exfalso; apply F; exact I]]).
  - apply (const_rep s loc_null W). cbv; lia.
  - apply (const_rep s loc_true W). cbv; lia.
  - apply (const_rep s loc_false W). cbv; lia.
  - apply (const_rep s loc_nan W). cbv; lia.
  - apply (const_rep s loc_inf W). cbv; lia.
Qed.
Print Assumptions C88_value.
(** [NewObject(false)] and [NewArray(false)]. *)
Theorem C88_object : forall s l s', wf s -> NewObject s = (l, s') ->
  rep (hp s') (Some l) (VObject false []) /\ born s l s' /\ c_own (hp s' l) = None.
Proof.
  intros s l s' W H. injection H as <- <-. split; [|split].
  - apply (clean_rep _ _ TObject); cbn [hp]; rewrite upd_same; [repeat split; reflexivity|left; intros []].
  - apply (new_born s _ TObject W); [repeat split; reflexivity|reflexivity].
  - cbn [hp]. rewrite upd_same. reflexivity.
Qed.
Print Assumptions C88_object.
Theorem C88_array : forall s l s', wf s -> NewArray s = (l, s') ->
  rep (hp s') (Some l) (VArray []) /\ born s l s' /\ c_own (hp s' l) = None.
Proof.
  intros s l s' W H. injection H as <- <-. split; [|split].
  - apply (clean_rep _ _ TArray); cbn [hp]; rewrite upd_same; [repeat split; reflexivity|left; intros []].
  - apply (new_born s _ TArray W); [repeat split; reflexivity|reflexivity].
  - cbn [hp]. rewrite upd_same. reflexivity.
Qed.
Print Assumptions C88_array.
(** [NewCacheValue(t)], hence [NewObject(true)] and [NewArray(true)], whatever the cache that the pool hands
    out held before: empty if [t] is not numeric, and some number of type [t] if it is. *)
Theorem C88_cached : forall G s ch t l s', wf s -> NewCacheValue G s ch t = (l, s') ->
  (~ numeric t -> rep (hp s') (Some l) (zero_of t)) /\ (exists n, rep (hp s') (Some l) (number_of t n)) /\
  (fixed t -> (l < 5)%nat /\ s' = s) /\ (~ fixed t -> born s l s').
Proof.
  intros G s ch t l s' W H.
  assert (B : (let (k, s1) := getCache s ch in getValue G s1 (Some k) t) = (l, s') -> ~ fixed t ->
    (~ numeric t -> rep (hp s') (Some l) (zero_of t)) /\ (exists n, rep (hp s') (Some l) (number_of t n)) /\
    (fixed t -> (l < 5)%nat /\ s' = s) /\ (~ fixed t -> born s l s')).
  { clear H. intros H NF. destruct (cache_of_same G s (Some ch) W) as (HP & LV & LV' & W1 & OC). cbn [cache_of fst snd] in *.
    destruct (getCache s ch) as [k s0] eqn:GC. cbn [fst snd] in *.
    destruct (get_base G s0 (Some k) t l s' W1 OC H) as [B C].
    split; [intros NN; apply clean_rep; auto|]. split; [eexists; apply clean_number; exact C|].
    split; [intros F; destruct (NF F)|]. intros _.
    split. { apply (b_tr _ _ _ _ B N N W1 OC). }
    split; [apply (b_5 _ _ _ _ B)|]. split. { intros L. apply (b_new _ _ _ _ B). apply LV, L. }
    split; [apply (b_live _ _ _ _ B)|]. split.
    - intros x L. apply LV in L. split; [rewrite (b_frame _ _ _ _ B) by auto; rewrite HP; reflexivity|apply (b_lives _ _ _ _ B); exact L].
    - intros x. apply reach_leaf. intros y. apply (clean_leaf _ _ y C). }
  destruct t; try (apply B; [exact H|intros []]; fail); clear B; injection H as <- <-.
  all: match goal with |- context [rep _ (Some ?c) _] =>
    pose proof (const_rep s c W) as R; cbn [const_type zero_of loc_true loc_false loc_null loc_nan loc_inf] in R end.
  all: (split; [intros _; apply R; cbv; lia|split; [exists 0; apply R; cbv; lia|split; [intros _; split; [cbv; lia|reflexivity]|intros F; exfalso; apply F; exact I]]]).
Qed.
Print Assumptions C88_cached.
(** [Reset(t)] of a value in use: empty if [t] is not numeric, whatever the value was; no other value changes. *)
Theorem C88_reset : forall s l t, wf s -> live s l -> (5 <= l)%nat ->
  wf (Reset s l t) /\ (~ numeric t -> rep (hp (Reset s l t)) (Some l) (zero_of t)) /\
  rep (hp (Reset s l t)) (Some l) (number_of t (c_sv (hp s l))) /\
  (forall x, x <> l -> hp (Reset s l t) x = hp s x) /\ (forall x, live s x <-> live (Reset s l t) x) /\
  (forall x, reach (hp (Reset s l t)) l x -> x = l) /\ c_own (hp (Reset s l t) l) = c_own (hp s l).
Proof.
  intros s l t W L L5. pose proof (tr_Reset N N s l t W) as T.
  assert (RS : Reset s l t = set_cell s l (reset_cell (hp s l) t)).
  { unfold Reset. rewrite (proj2 (ReadOnly_ge l) L5). reflexivity. }
  assert (HL : hp (Reset s l t) l = reset_cell (hp s l) t) by (rewrite RS; cbn [set_cell hp]; apply upd_same).
  assert (C : clean (hp (Reset s l t) l) t) by (rewrite HL; apply clean_reset).
  assert (SV : c_sv (hp (Reset s l t) l) = c_sv (hp s l)) by (rewrite HL; destruct t; reflexivity).
  split; [apply T; split; [apply L|intros []]|]. split; [intros NN; apply clean_rep; auto|].
  split; [rewrite <- SV; apply clean_number; exact C|]. split; [intros x X; rewrite RS; cbn [set_cell hp]; apply upd_other; exact X|].
  split; [intros x; rewrite RS; reflexivity|].
  split; [intros x; apply reach_leaf; intros y; apply (clean_leaf _ _ y C)|]. rewrite HL. destruct t; reflexivity.
Qed.
Print Assumptions C88_reset.

(** Nothing is left behind the pair list of a new or reset object: a load that fails leaves what it read, and
    no key or value of an earlier life. *)
Theorem C88_failed_load : forall E G s l s1 s2 b v e, num_env E -> wf s ->
  (NewObject s = (l, s1) \/ NewValue s TObject = (l, s1) \/
   (live s l /\ (5 <= l)%nat /\ no_stale (hp s l) /\ s1 = Reset s l TObject)) ->
  Clear s1 l = Ok s2 -> live s2 l -> LoadFromJson E (VObject false []) b = (v, Err e) ->
  exists s', h_LoadFromJson E G s1 l b = Ok (s', Some e) /\ shows (hp s') (Some l) (low v).
Proof.
  intros E G s l s1 s2 b v e NE W H CL L Q.
  assert (K : wf s1 /\ (5 <= l)%nat /\ rep (hp s1) (Some l) (VObject false []) /\ no_stale (hp s1 l)).
  { destruct H as [H|[H|(LL & L5 & NS & ->)]].
    - destruct (C88_object s l s1 W H) as (R & (W1 & L5 & _) & _). split; [exact W1|]. split; [exact L5|]. split; [exact R|].
      injection H as <- <-. unfold no_stale. cbn [hp]. rewrite upd_same. cbn [c_spare]. apply Forall_forall.
      intros x X. cbn [repeat In] in X. intuition auto.
    - destruct (C88_value s TObject l s1 W H) as (R & _ & B). destruct B as [(W1 & L5 & _) _]; [intros []|]. split; [exact W1|]. split; [exact L5|]. split; [exact R|].
      injection H as <- <-. unfold no_stale. cbn [hp]. rewrite upd_same. cbn [reset_cell zero_cell c_kvs c_spare]. apply Forall_forall.
      intros x X. cbn [repeat In] in X. intuition auto.
    - destruct (C88_reset s l TObject W LL L5) as (W1 & R & _). split; [exact W1|]. split; [exact L5|]. split; [apply R; intros []|].
      unfold Reset. rewrite (proj2 (ReadOnly_ge l) L5). unfold no_stale. cbn [set_cell hp]. rewrite upd_same.
      unfold reset_cell. cbn [c_spare]. apply Forall_forall. intros x X. unfold no_stale in NS. rewrite Forall_forall in NS.
      assert (X' : In x (repeat empty_kv 8) \/ In x (map (fun _ => empty_kv) (c_kvs (hp s l)) ++ c_spare (hp s l))).
      { destruct (c_kvs (hp s l)), (c_spare (hp s l)); auto. }
      destruct X' as [X'|X']; [apply repeat_spec in X'; auto|].
      apply in_app_or in X' as [X'|X']; [|auto]. apply in_map_iff in X' as (z & Z & _). auto. }
  destruct K as (W1 & L5 & R & NS). destruct (C67_failure E G s1 s2 l b _ _ _ NE W1 CL L L5 R Q) as (s' & A & B).
  exists s'. split; [exact A|]. apply B. intros _. exact NS.
Qed.
Print Assumptions C88_failed_load.

(** An integer is freed; the cached array made in its memory is empty.  The object [{"a":7,"b":true}] is reset, and a failing
    load leaves the pair it read and an empty one. *)
Example C88_case : exists s1 s2 e s',
  wf recv_st /\ live recv_st 5 /\ no_stale (hp recv_st 5) /\
  NewCacheValue g0 recycled_st (Some 0%nat) TArray = (5%nat, s1) /\ view 3 (hp s1) (Some 5%nat) = Some (VArray []) /\
  Clear (Reset recv_st 5 TObject) 5 = Ok s2 /\ live s2 5 /\
  LoadFromJson e64 (VObject false []) (bs "{""x"":1,2") = (VObject false [(bs "x", VInt 0 1); ([], VNilP)], Err e) /\
  h_LoadFromJson e64 g0 (Reset recv_st 5 TObject) 5 (bs "{""x"":1,2") = Ok (s', Some e).
Proof.
  destruct (NewCacheValue g0 recycled_st (Some 0%nat) TArray) as [l s1] eqn:Q.
  assert (Q' : (l, view 3 (hp s1) (Some l)) = (5%nat, Some (VArray []))).
  { transitivity ((fun r => (fst r, view 3 (hp (snd r)) (Some (fst r)))) (NewCacheValue g0 recycled_st (Some 0%nat) TArray)); [rewrite Q; reflexivity|vm_compute; reflexivity]. }
  apply pair_equal_spec in Q' as [-> V].
  destruct (ok_ex (fun s => live_b s 5) (Clear (Reset recv_st 5 TObject) 5) true) as (s2 & Q1 & Q2); [vm_compute; reflexivity|].
  destruct (ok_ex snd (h_LoadFromJson e64 g0 (Reset recv_st 5 TObject) 5 (bs "{""x"":1,2")) (Some (ErrJson JET_NoKeyStart 0 (bs "2")))) as ([s' e] & Q3 & Q4); [vm_compute; reflexivity|].
  cbn [snd] in Q4. subst e. exists s1, s2. eexists. exists s'. split; [exact recv_wf|]. split; [apply live_of; vm_compute; reflexivity|].
  split; [vm_compute; repeat constructor|]. split; [reflexivity|]. split; [exact V|]. split; [exact Q1|]. split; [apply live_of; exact Q2|].
  split; [vm_compute; reflexivity|exact Q3].
Qed.

(** A cached number need not be zero: after an integer -1 is freed, [NewCacheValue(VT_Int)] reads -1 and
    [NewCacheValue(VT_Double)] its bits; nor does [Reset] set it to zero. *)
Theorem C88_number_refuted : exists s1 s2, wf recycled_st /\
  NewCacheValue g0 recycled_st (Some 0%nat) TInt = (5%nat, s1) /\ rep (hp s1) (Some 5%nat) (VInt 0 (-1)) /\
  NewCacheValue g0 recycled_st (Some 0%nat) TDouble = (5%nat, s2) /\ rep (hp s2) (Some 5%nat) (VDouble (2 ^ 64 - 1)) /\
  rep (hp (Reset s1 5 TDateTime)) (Some 5%nat) (VDateTime (2 ^ 64 - 1)).
Proof.
  destruct (NewCacheValue g0 recycled_st (Some 0%nat) TInt) as [l s1] eqn:Q.
  destruct (NewCacheValue g0 recycled_st (Some 0%nat) TDouble) as [l' s2] eqn:Q2.
  assert (V : (l, view 3 (hp s1) (Some l), view 3 (hp (Reset s1 5 TDateTime)) (Some 5%nat)) = (5%nat, Some (VInt 0 (-1)), Some (VDateTime (2 ^ 64 - 1)))).
  { transitivity ((fun r => (fst r, view 3 (hp (snd r)) (Some (fst r)), view 3 (hp (Reset (snd r) 5 TDateTime)) (Some 5%nat))) (NewCacheValue g0 recycled_st (Some 0%nat) TInt)); [rewrite Q; reflexivity|vm_compute; reflexivity]. }
  assert (V2 : (l', view 3 (hp s2) (Some l')) = (5%nat, Some (VDouble (2 ^ 64 - 1)))).
  { transitivity ((fun r => (fst r, view 3 (hp (snd r)) (Some (fst r)))) (NewCacheValue g0 recycled_st (Some 0%nat) TDouble)); [rewrite Q2; reflexivity|vm_compute; reflexivity]. }
  apply pair_equal_spec in V as [V V3]. apply pair_equal_spec in V as [-> V]. apply pair_equal_spec in V2 as [-> V2].
  exists s1, s2. split; [exact recycled_wf|]. split; [reflexivity|]. split; [exact (view_rep _ _ _ _ V)|].
  split; [reflexivity|]. split; [exact (view_rep _ _ _ _ V2)|exact (view_rep _ _ _ _ V3)].
Qed.
Print Assumptions C88_number_refuted.

(** A cached object need not be free of what an earlier value held: [{"a":7,"b":true}] loses its key [b] and is freed;
    the next cached object fails to load [{"x":1,2] and has the key [b] with its value. *)
Definition leaked_ops : list op :=
  [OFromJson (Some None) (bs "{""a"":7,""b"":true}"); ORemoveKey 5 (bs "b"); OFree (Some 5%nat); ONewCache (Some 0%nat) TObject].
Definition leaked_st : st := st_of e64 g0 leaked_ops.
Lemma leaked_wf : wf leaked_st.
Proof. apply st_of_wf; vm_compute; reflexivity. Qed.
Theorem C88_leak_refuted : exists s' e, wf leaked_st /\ rep (hp leaked_st) (Some 5%nat) (VObject false []) /\
  LoadFromJson e64 (VObject false []) (bs "{""x"":1,2") = (VObject false [(bs "x", VInt 0 1); ([], VNilP)], Err e) /\
  h_LoadFromJson e64 g0 leaked_st 5 (bs "{""x"":1,2") = Ok (s', Some e) /\
  rep (hp s') (Some 5%nat) (VObject false [(bs "x", VInt 0 1); (bs "b", VTrue)]).
Proof.
  destruct (ok_ex (fun r => (snd r, view 3 (hp (fst r)) (Some 5%nat))) (h_LoadFromJson e64 g0 leaked_st 5 (bs "{""x"":1,2"))
    (Some (ErrJson JET_NoKeyStart 0 (bs "2")), Some (VObject false [(bs "x", VInt 0 1); (bs "b", VTrue)]))) as ([s' e] & Q1 & Q2); [vm_compute; reflexivity|].
  cbn [fst snd] in Q2. apply pair_equal_spec in Q2 as [-> V]. exists s'. eexists. split; [exact leaked_wf|].
  split; [apply (view_rep 3); vm_compute; reflexivity|]. split; [vm_compute; reflexivity|]. split; [exact Q1|exact (view_rep _ _ _ _ V)].
Qed.
Print Assumptions C88_leak_refuted.
