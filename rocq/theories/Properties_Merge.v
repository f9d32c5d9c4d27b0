(** Properties C37, C38: [MergeWith].  Each theorem is followed by what it assumes and by a concrete case. *)
From Coq Require Import String.
From Verif Require Import Base Values Tactics Env0 HeapModel HeapSpec HeapBase HeapConf HeapGet
  ApiSpec HeapMap HeapCalls HeapObj HeapArr HeapForce HeapClone HeapEqual HeapMono HeapMerge HeapMergeObj
  Properties_Map Properties_Heap Properties_Clone.

(** ** C37 *)
(** The receiver becomes the union of the two maps, its own entries first and in place; the argument
    keeps its content; nothing else in use changes but colliding entries. *)
Theorem C37_union : forall E G s l m u vs u' ws, env_ok E -> wf s ->
  rep (hp s) (Some l) (VObject u vs) -> rep (hp s) (Some m) (VObject u' ws) ->
  plive s (Some l) -> cloneable_graph s m -> separate s l m ->
  distinct_keys (key_match E) (unescape_keys E u vs) -> distinct_keys (key_match E) (unescape_keys E u' ws) ->
  unescape_keys E u' ws = ws ->
  Forall (fun kv => clonable (snd kv)) ws ->
  (forall kv kw, In kv (unescape_keys E u vs) -> In kw ws -> key_match E (fst kv) (fst kw) = true -> scalar (snd kv)) ->
  exists n0, forall fuel, (n0 <= fuel)%nat -> exists s' u1 vs1 added,
    MergeWith E G fuel s (Some l) (Some m) None = Ok s' /\
    rep (hp s') (Some l) (VObject u1 vs1) /\
    unescape_keys E u1 vs1 = union (key_match E) (unescape_keys E u vs) (unescape_keys E u' ws) /\
    rep (hp s') (Some m) (VObject u' ws) /\
    pairs E s' l = pairs E s l ++ added /\
    (forall x, live s x -> x <> l -> live s' x /\
       ((forall k0 kw, In (k0, Some x) (pairs E s l) -> In kw ws -> key_match E k0 (fst kw) = false) -> hp s' x = hp s x)).
Proof. intros E G s l m u vs u' ws EO W RL RM PL CG SEP DV DW LIT. rewrite LIT in *. exact (merge_objects E G EO s l m u vs u' ws W RL RM PL CG SEP DV DW). Qed.
Print Assumptions C37_union.

(** What the union contains, by key. *)
Theorem C37_union_lookup : forall (same : bytes -> bytes -> bool), (forall a b, same a b = same b a) ->
  (forall a b c, same a b = true -> same a c = same b c) ->
  forall v w k, distinct_keys same v -> distinct_keys same w ->
  pick same k (union same v w) =
    match pick same k v, pick same k w with
    | Some x, Some y => Some (VArray [strip x; strip y])
    | Some x, None => Some x
    | None, Some y => Some (strip y)
    | None, None => None
    end.
Proof.
  intros same SY CG v w k DV DW. unfold union.
  assert (AP : forall (a b : list (bytes * value)), pick same k (a ++ b) = match pick same k a with Some x => Some x | None => pick same k b end).
  { induction a as [|x a IH]; intros b; cbn [app pick]; auto. destruct (same k (fst x)); auto. }
  rewrite AP. clear AP DV.
  assert (P1 : forall f : bytes * value -> value, (forall kv, same k (fst kv) = true -> f kv = match pick same k w with
      | Some y => VArray [strip (snd kv); strip y] | None => snd kv end) ->
    pick same k (map (fun kv => (fst kv, f kv)) v) = match pick same k v with
      | Some x => Some match pick same k w with Some y => VArray [strip x; strip y] | None => x end | None => None end).
  { intros f FH. induction v as [|x v IH]; cbn [map pick fst snd]; auto. destruct (same k (fst x)) eqn:SK; auto. rewrite (FH x SK). reflexivity. }
  rewrite P1.
  2:{ intros kv SK. assert (Q : forall u : list (bytes * value), pick same (fst kv) u = pick same k u).
      { induction u as [|x u IH]; cbn [pick]; auto. rewrite (CG k (fst kv) (fst x) SK), IH. reflexivity. }
      rewrite Q. reflexivity. }
  destruct (pick same k v) as [x|] eqn:PV.
  - destruct (pick same k w); reflexivity.
  - assert (NV : forall kv, In kv v -> same k (fst kv) = false).
    { intros kv I. destruct (same k (fst kv)) eqn:SK; auto. exfalso. clear P1. induction v as [|z v IH]; [destruct I|].
      cbn [pick] in PV. destruct (same k (fst z)) eqn:SZ; [discriminate|]. destruct I as [<-|I]; [congruence|auto]. }
    clear P1 PV DW. induction w as [|y w IH]; cbn [filter map pick]; auto.
    destruct (existsb (fun kv' => same (fst kv') (fst y)) v) eqn:EX; cbn [negb].
    + apply existsb_exists in EX as (kv & I & SY'). rewrite IH.
      assert (K : same k (fst y) = false). { pose proof (NV kv I) as A. rewrite SY in A. rewrite SY in SY'. rewrite SY, (CG _ _ k SY'). exact A. }
      rewrite K. reflexivity.
    + cbn [map pick fst snd]. destruct (same k (fst y)); auto.
Qed.
Print Assumptions C37_union_lookup.

(** States reached by calls, and facts about them by computation. *)
Definition ok_map {A B} (f : A -> B) (r : res A) : option B := match r with Ok a => Some (f a) | _ => None end.
Lemma ok_ex {A B} (f : A -> B) r b : ok_map f r = Some b -> exists a, r = Ok a /\ f a = b.
Proof. destruct r; try discriminate. intros Q. injection Q as <-. eauto. Qed.
Definition st_of (E : env) (G : nat -> nat) (os : list op) : st := match run_all E G st0 os with Ok s => s | _ => st0 end.
Lemma st_of_runs E G os : all_in E G st0 os = true -> ok_map (fun _ => tt) (run_all E G st0 os) = Some tt ->
  runs E G none_set st0 os (st_of E G os).
Proof.
  intros A Q. apply run_all_runs; [exact A|]. unfold st_of. apply ok_ex in Q as (s & Q & _). rewrite Q. reflexivity.
Qed.
Lemma st_of_wf E G os : all_in E G st0 os = true -> ok_map (fun _ => tt) (run_all E G st0 os) = Some tt -> wf (st_of E G os).
Proof. intros A Q. apply (tr_runs none_set none_set E G st0 os _ wf_st0 (st_of_runs E G os A Q)). Qed.

(** [{"a":7,"b":true}] and [{"A":"x","c":[null]}], keys compared ignoring case. *)
Definition two_objects : list op :=
  [ONewObject; OSetKey 5 (bs "a") TInt; OSetInt 6 7; OSetKeyValue 5 (bs "b") (Some 0%nat);
   ONewObject; OSetKey 14 (bs "A") TString; OSetString 15 (bs "x"); OSetKey 14 (bs "c") TArray; OSetIndexValue 23 0 (Some 2%nat)].
Definition merge_st : st := st_of e1 g0 two_objects.
Lemma merge_wf : wf merge_st.
Proof. apply st_of_wf; vm_compute; reflexivity. Qed.
(** What the cells show. *)
Definition kids (c : cell) : list nat :=
  flat_map opt_list (match c_dt c with TObject => map snd (c_kvs c) | TArray => c_arr c | _ => [] end).
Lemma kids_sees c y : sees c y -> In y (kids c).
Proof.
  unfold sees, kids. intros H. apply in_flat_map. exists (Some y). split; [|left; reflexivity].
  destruct (c_dt c); auto; destruct H.
Qed.
(** A set of cells closed under the children of its members contains the graph. *)
Lemma reach_in s l (L : list nat) : In l L ->
  forallb (fun x => forallb (fun y => existsb (Nat.eqb y) L) (kids (hp s x))) L = true ->
  forall x, reach (hp s) l x -> In x L.
Proof.
  intros I H x R. induction R as [|x y R IH S0]; auto. rewrite forallb_forall in H. specialize (H x IH). rewrite forallb_forall in H.
  apply kids_sees in S0. specialize (H y S0). apply existsb_exists in H as (z & Z & Q). apply Nat.eqb_eq in Q. subst z. exact Z.
Qed.
Lemma merge_reach_l x : reach (hp merge_st) 5 x -> In x [5; 6; 0]%nat.
Proof. apply reach_in; [left; reflexivity|vm_compute; reflexivity]. Qed.
Lemma merge_reach_m x : reach (hp merge_st) 14 x -> In x [14; 15; 23; 2]%nat.
Proof. apply reach_in; [left; reflexivity|vm_compute; reflexivity]. Qed.
Definition live_b (s : st) (l : nat) : bool :=
  (l <? nx s)%nat && forallb (fun k => negb (existsb (Nat.eqb l) (skipn (ca_len (cs s k)) (ca_slots (cs s k))))) (seq 0 (nc s)).
Lemma live_of s l : live_b s l = true -> live s l.
Proof.
  intros H. apply andb_true_iff in H as [H1 H2]. split; [apply Nat.ltb_lt; exact H1|]. intros k K I.
  rewrite forallb_forall in H2. assert (KS : In k (seq 0 (nc s))) by (apply in_seq; lia). specialize (H2 k KS).
  apply negb_true_iff in H2. rewrite <- not_true_iff_false in H2. apply H2. apply existsb_exists. exists l. split; [exact I|apply Nat.eqb_refl].
Qed.

Definition left_value : value := VObject true [(bs "a", VInt 0 7); (bs "b", VTrue)].
Definition right_pairs : list (bytes * value) := [(bs "A", VString (bs "x")); (bs "c", VArray [VNull])].
Lemma int_at h l e v n : c_dt (h l) = TInt -> c_ext (h l) = e -> to_i64 (c_sv (h l)) = n -> v = VInt e n -> rep h (Some l) v.
Proof. intros D <- <- ->. apply rep_int; auto. Qed.
Lemma str_at h l b : c_dt (h l) = TString -> c_str (h l) = b -> rep h (Some l) (VString b).
Proof. intros D <-. apply rep_str; auto. Qed.
Example C37_nonvacuous :
  wf merge_st /\ rep (hp merge_st) (Some 5%nat) left_value /\ rep (hp merge_st) (Some 14%nat) (VObject true right_pairs) /\
  plive merge_st (Some 5%nat) /\ cloneable_graph merge_st 14 /\ separate merge_st 5 14 /\
  distinct_keys (key_match e1) [(bs "a", VInt 0 7); (bs "b", VTrue)] /\ distinct_keys (key_match e1) right_pairs /\
  Forall (fun kv => clonable (snd kv)) right_pairs /\
  (forall kv kw, In kv [(bs "a", VInt 0 7); (bs "b", VTrue)] -> In kw right_pairs ->
     key_match e1 (fst kv) (fst kw) = true -> scalar (snd kv)) /\
  union (key_match e1) [(bs "a", VInt 0 7); (bs "b", VTrue)] right_pairs =
    [(bs "a", VArray [VInt 0 7; VString (bs "x")]); (bs "b", VTrue); (bs "c", VArray [VNull])] /\
  exists s', MergeWith e1 g0 9 merge_st (Some 5%nat) (Some 14%nat) None = Ok s' /\
    (map fst (c_kvs (hp s' 5)), c_dt (hp s' 6)) = ([bs "a"; bs "b"; bs "c"], TArray).
Proof.
  split; [exact merge_wf|].
  split. { apply rep_obj_intro; [vm_compute; reflexivity|vm_compute; reflexivity|].
    replace (c_kvs (hp merge_st 5)) with [(bs "a", Some 6%nat); (bs "b", Some 0%nat)] by (vm_compute; reflexivity).
    constructor; [split; [reflexivity|]|constructor; [split; [reflexivity|]|constructor]]; cbn [snd].
    - eapply int_at; vm_compute; reflexivity.
    - apply rep_true. vm_compute. reflexivity. }
  split. { apply rep_obj_intro; [vm_compute; reflexivity|vm_compute; reflexivity|].
    replace (c_kvs (hp merge_st 14)) with [(bs "A", Some 15%nat); (bs "c", Some 23%nat)] by (vm_compute; reflexivity).
    constructor; [split; [reflexivity|]|constructor; [split; [reflexivity|]|constructor]]; cbn [snd].
    - apply str_at; vm_compute; reflexivity.
    - apply rep_arr; [vm_compute; reflexivity|]. replace (c_arr (hp merge_st 23)) with [Some 2%nat] by (vm_compute; reflexivity).
      constructor; [|constructor]. apply rep_null. vm_compute. reflexivity. }
  split. { intros x (y & Q & X). injection Q as <-. apply merge_reach_l in X. repeat destruct X as [<-|X]; try (destruct X); apply live_of; vm_compute; reflexivity. }
  split. { intros x X. apply merge_reach_m in X. repeat destruct X as [<-|X]; try (destruct X);
    (split; [apply live_of; vm_compute; reflexivity|]); intros C; try lia; exfalso; apply C; vm_compute; reflexivity. }
  split. { split.
    - intros i j p q NE Qi Qj. assert (EN : entries merge_st 5 = [Some 6%nat; Some 0%nat]) by (vm_compute; reflexivity). rewrite EN in Qi, Qj. clear EN.
      assert (AA : forall x y, reach (hp merge_st) 6 x -> x = y -> In y [6%nat]).
      { intros x y X <-. revert X. apply reach_in; [left; reflexivity|vm_compute; reflexivity]. }
      assert (BB : forall x, reach (hp merge_st) 0 x -> In x [0%nat]).
      { apply reach_in; [left; reflexivity|vm_compute; reflexivity]. }
      destruct i as [|[|i]], j as [|[|j]]; cbn in Qi, Qj; try (exfalso; exact (NE eq_refl)); try (destruct i; discriminate); try (destruct j; discriminate);
        injection Qi as <-; injection Qj as <-; intros x (y & Q & X) (z & Q' & Y); injection Q as <-; injection Q' as <-;
        [apply BB in Y; destruct Y as [<-|[]]; lia|apply BB in X; destruct X as [<-|[]]; lia].
    - intros x X Y. apply merge_reach_l in X. apply merge_reach_m in Y. cbn in X, Y. lia. }
  split. { repeat (constructor; [repeat constructor|]). constructor. }
  split. { repeat (constructor; [repeat constructor|]). constructor. }
  split. { repeat constructor. }
  split. { intros kv kw I J. destruct I as [<-|[<-|[]]]; [intros _; exact Logic.I|].
    destruct J as [<-|[<-|[]]]; vm_compute; discriminate. }
  split; [vm_compute; reflexivity|].
  apply ok_ex. vm_compute. reflexivity.
Qed.

(** Keys that follow a colliding container in the argument are dropped: [{"a":{}}] merged with
    [{"a":{},"b":0}] has no key [b]. *)
Definition collide_ops : list op :=
  [ONewObject; OSetKey 5 (bs "a") TObject; ONewObject; OSetKey 14 (bs "a") TObject; OSetKey 14 (bs "b") TInt].
Theorem C37_container_refuted : forall ic, let E := env0 ic in let s := st_of E g0 collide_ops in
  runs E g0 none_set st0 collide_ops s /\
  fst (ValueByName E s 5 (bs "b")) = None /\ fst (ValueByName E s 14 (bs "b")) = Some 23%nat /\
  exists s', MergeWith E g0 9 s (Some 5%nat) (Some 14%nat) None = Ok s' /\ fst (ValueByName E s' 5 (bs "b")) = None.
Proof.
  intros ic E s. split; [apply st_of_runs; destruct ic; vm_compute; reflexivity|].
  split; [destruct ic; vm_compute; reflexivity|]. split; [destruct ic; vm_compute; reflexivity|].
  apply ok_ex. destruct ic; vm_compute; reflexivity.
Qed.
Print Assumptions C37_container_refuted.

(** A colliding shared constant is not combined: [{"a":true}] merged with [{"a":0}] still holds [true]. *)
Definition constant_ops : list op :=
  [ONewObject; OSetKeyValue 5 (bs "a") (Some 0%nat); ONewObject; OSetKey 6 (bs "a") TInt].
Theorem C37_constant_refuted : forall ic, let E := env0 ic in let s := st_of E g0 constant_ops in
  runs E g0 none_set st0 constant_ops s /\
  exists s', MergeWith E g0 9 s (Some 5%nat) (Some 6%nat) None = Ok s' /\
    (fst (ValueByName E s' 5 (bs "a")), c_dt (hp s' 0)) = (Some 0%nat, TTrue).
Proof.
  intros ic E s. split; [apply st_of_runs; destruct ic; vm_compute; reflexivity|].
  apply ok_ex. destruct ic; vm_compute; reflexivity.
Qed.
Print Assumptions C37_constant_refuted.

(** The keys of the argument are copied as they stand: the key ["a/"] of a freshly parsed argument
    [{"a\/":[true,{}]}] cannot be found in the receiver afterwards. *)
Definition with_empty : st :=
  mkSt (upd (hp nested) 8 (mkCell TObject 0 false [] [] None 0 [] [] [])) 9 (cs nested) (nc nested) (pl nested).
Theorem C37_escaped_key_refuted : rep (hp with_empty) (Some 5%nat) nested_value /\
  rep (hp with_empty) (Some 8%nat) (VObject false []) /\
  fst (ValueByName e1 with_empty 5 (bs "a/")) = Some 6%nat /\
  exists s', MergeWith e1 g0 9 with_empty (Some 8%nat) (Some 5%nat) None = Ok s' /\
    (fst (ValueByName e1 s' 8 (bs "a/")), map fst (c_kvs (hp s' 8))) = (None, [bs "a\/"]).
Proof.
  split. { apply (rep_frame (hp nested)); [apply nested_rep|]. intros x (y & Q & X). injection Q as <-. apply nested_cells in X.
    cbn [with_empty hp]. apply upd_other. lia. }
  split; [apply rep_obj_intro; [reflexivity|reflexivity|constructor]|].
  split; [vm_compute; reflexivity|]. apply ok_ex. vm_compute. reflexivity.
Qed.
Print Assumptions C37_escaped_key_refuted.

(** ** C38 *)
(** The elements of the receiver stay, and copies of exactly those elements of the argument that have
    the content of none of them follow, in order. *)
Theorem C38_union : forall E G s l m vs ws fn, wf s -> slots64 (hp s) ->
  rep (hp s) (Some l) (VArray vs) -> rep (hp s) (Some m) (VArray ws) ->
  plive s (Some l) -> cloneable_graph s m ->
  Forall plain vs -> Forall plain ws -> Forall clonable ws ->
  Forall (fun w => Forall (arrays_match w) vs) ws ->
  exists n0, forall fuel, (n0 <= fuel)%nat -> exists new out s',
    MergeWith E G fuel s (Some l) (Some m) fn = Ok s' /\
    kept E vs ws out /\
    c_arr (hp s' l) = c_arr (hp s l) ++ new /\
    nrep E (hp s') (Some l) (VArray (vs ++ map strip out)) /\
    (forall p x, In p new -> preach (hp s') p x -> (x < 5)%nat \/ ((5 <= x)%nat /\ ~ live s x /\ live s' x)) /\
    (forall x, live s x -> x <> l -> live s' x /\
      (hp s' x = hp s x \/ (c_dt (hp s x) = TObject /\ hp s' x = unescape_cell E (hp s x)))).
Proof. exact merge_arrays. Qed.
Print Assumptions C38_union.

(** Nothing happens unless both values are objects or both are arrays. *)
Theorem C38_other : forall E G fuel s p q fn,
  ~ (exists l m, p = Some l /\ q = Some m /\ c_dt (hp s l) = c_dt (hp s m) /\ (c_dt (hp s l) = TObject \/ c_dt (hp s l) = TArray)) ->
  MergeWith E G fuel s p q fn = Ok s.
Proof.
  intros E G fuel s p q fn H. unfold MergeWith. destruct q as [m|]; [|reflexivity]. destruct p as [l|]; [|reflexivity].
  destruct (vt_eqb (c_dt (hp s m)) (c_dt (hp s l))) eqn:Q; [|reflexivity]. apply vt_eqb_eq in Q. cbn [negb orb].
  destruct (c_dt (hp s l)) eqn:D; try reflexivity; exfalso; apply H; exists l, m; rewrite D, Q; auto.
Qed.
Print Assumptions C38_other.
Example C38_other_case : let s := st_of e1 g0 [ONew TInt; OSetInt 5 7; ONew TInt; OSetInt 6 8] in
  MergeWith e1 g0 3 s (Some 5%nat) (Some 6%nat) None = Ok s /\ c_sv (hp s 5) = 7.
Proof. cbv zeta. split; [|vm_compute; reflexivity]. apply C38_other. intros (l & m & Q & _ & _ & [D|D]); injection Q as <-; vm_compute in D; discriminate D. Qed.

(** [[7,"x"]] and [["x",true,7,{}]]. *)
Definition two_arrays : list op :=
  [ONewArray; OSetIndex 5 0 TInt; OSetInt 6 7; OSetIndex 5 1 TString; OSetString 14 (bs "x");
   ONewArray; OSetIndex 22 0 TString; OSetString 23 (bs "x"); OSetIndexValue 22 1 (Some 0%nat);
   OSetIndex 22 2 TInt; OSetInt 31 7; OSetIndex 22 3 TObject].
Definition arrays_st : st := st_of e1 g0 two_arrays.
Lemma slots_of s : wf s -> forallb (fun x => (0 <=? c_sv (hp s x)) && (c_sv (hp s x) <? 2^64)) (seq 0 (nx s)) = true -> slots64 (hp s).
Proof.
  intros W H x. destruct (Nat.lt_ge_cases x (nx s)) as [L|L].
  - rewrite forallb_forall in H. assert (I : In x (seq 0 (nx s))) by (apply in_seq; lia). specialize (H x I). lia.
  - rewrite (i_fresh _ _ _ W x L). cbn. lia.
Qed.
Definition left_elems : list value := [VInt 0 7; VString (bs "x")].
Definition right_elems : list value := [VString (bs "x"); VTrue; VInt 0 7; VObject false []].
Example C38_nonvacuous : wf arrays_st /\ slots64 (hp arrays_st) /\
  rep (hp arrays_st) (Some 5%nat) (VArray left_elems) /\ rep (hp arrays_st) (Some 22%nat) (VArray right_elems) /\
  plive arrays_st (Some 5%nat) /\ cloneable_graph arrays_st 22 /\
  Forall plain left_elems /\ Forall plain right_elems /\ Forall clonable right_elems /\
  Forall (fun w => Forall (arrays_match w) left_elems) right_elems /\
  kept e1 left_elems right_elems [VTrue; VObject false []] /\
  exists s', MergeWith e1 g0 9 arrays_st (Some 5%nat) (Some 22%nat) None = Ok s' /\
    map (fun p => match p with Some x => Some (c_dt (hp s' x)) | None => None end) (c_arr (hp s' 5)) =
      [Some TInt; Some TString; Some TTrue; Some TObject].
Proof.
  assert (W : wf arrays_st) by (apply st_of_wf; vm_compute; reflexivity).
  split; [exact W|]. split; [apply slots_of; [exact W|vm_compute; reflexivity]|].
  split. { apply rep_arr; [vm_compute; reflexivity|]. replace (c_arr (hp arrays_st 5)) with [Some 6%nat; Some 14%nat] by (vm_compute; reflexivity).
    constructor; [eapply int_at; vm_compute; reflexivity|constructor; [apply str_at; vm_compute; reflexivity|constructor]]. }
  split. { apply rep_arr; [vm_compute; reflexivity|].
    replace (c_arr (hp arrays_st 22)) with [Some 23%nat; Some 0%nat; Some 31%nat; Some 39%nat] by (vm_compute; reflexivity).
    constructor; [apply str_at; vm_compute; reflexivity|]. constructor; [apply rep_true; vm_compute; reflexivity|].
    constructor; [eapply int_at; vm_compute; reflexivity|]. constructor; [|constructor].
    apply rep_obj_intro; [vm_compute; reflexivity|vm_compute; reflexivity|].
    replace (c_kvs (hp arrays_st 39)) with (@nil (bytes * ptr)) by (vm_compute; reflexivity). constructor. }
  split. { intros x (y & Q & X). injection Q as <-. assert (I : In x [5; 6; 14]%nat).
    { revert x X. apply reach_in; [left; reflexivity|vm_compute; reflexivity]. }
    repeat destruct I as [<-|I]; try (destruct I); apply live_of; vm_compute; reflexivity. }
  split. { intros x X. assert (I : In x [22; 23; 0; 31; 39]%nat).
    { revert x X. apply reach_in; [left; reflexivity|vm_compute; reflexivity]. }
    clear X. repeat destruct I as [<-|I]; try (destruct I);
    (split; [apply live_of; vm_compute; reflexivity|]); intros C; try lia; exfalso; apply C; vm_compute; reflexivity. }
  split; [repeat constructor|]. split; [repeat constructor|]. split; [repeat constructor|]. split; [repeat constructor|].
  split. { apply kept_drop; [right; left; apply same_str|]. apply kept_take.
    { intros X. inversion X as [? ? Y|? ? Y]; subst; [inversion Y|]. inversion Y as [? ? Z|? ? Z]; subst; inversion Z. }
    apply kept_drop; [left; apply same_int|]. apply kept_take.
    { intros X. inversion X as [? ? Y|? ? Y]; subst; [inversion Y|]. inversion Y as [? ? Z|? ? Z]; subst; inversion Z. }
    constructor. }
  apply ok_ex. vm_compute. reflexivity.
Qed.
