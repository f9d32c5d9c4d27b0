(** Property C80: [MergeWith] with a callback, and what becomes of colliding containers.  Each theorem is
    followed by what it assumes and by a concrete case. *)
From Coq Require Import String.
From Verif Require Import Base Values Tactics Env0 HeapModel HeapSpec HeapBase HeapConf HeapGet
  ApiSpec HeapMap HeapCalls HeapObj HeapArr HeapForce HeapClone HeapEqual HeapMono HeapMerge HeapMergeObj
  Properties_Map Properties_Heap Properties_Clone Properties_Merge.

(** The callback is asked once for every key of the argument that the receiver has too, in the order of
    the argument, with the two values as they were before the call ([asks]); its verdicts are carried
    out ([union_by]): both values in a new array, a copy of the argument's value, or nothing.  Keys the
    receiver lacks are added.  The argument keeps its content, and no cell in use changes but the receiver
    and values that were combined or replaced. *)
Theorem C80_verdicts : forall E G g s l m u vs u' ws, env_ok E -> wf s ->
  rep (hp s) (Some l) (VObject u vs) -> rep (hp s) (Some m) (VObject u' ws) ->
  plive s (Some l) -> cloneable_graph s m -> separate s l m ->
  distinct_keys (key_match E) (unescape_keys E u vs) -> distinct_keys (key_match E) ws ->
  Forall (fun kv => clonable (snd kv)) ws ->
  let js := judged ws (asks E (Some g) [] (pairs E s l) (c_kvs (hp s m))) in
  (forall kv kw, In kv (unescape_keys E u vs) -> In kw js -> key_match E (fst kv) (fst kw) = true ->
     mergeable (snd kv) (snd (snd kw))) ->
  exists n0, forall fuel, (n0 <= fuel)%nat -> exists s' u1 vs1 kept added,
    MergeWith E G fuel s (Some l) (Some m) (Some g) = Ok s' /\
    rep (hp s') (Some l) (VObject u1 vs1) /\
    unescape_keys E u1 vs1 = union_by (key_match E) (unescape_keys E u vs) js /\
    rep (hp s') (Some m) (VObject u' ws) /\
    pairs E s' l = kept ++ added /\ Forall2 (kept_pairs E js) (pairs E s l) kept /\
    (forall x, live s x -> x <> l -> live s' x /\
       ((forall k0 kw, In (k0, Some x) (pairs E s l) -> In kw js -> key_match E k0 (fst kw) = true ->
           snd (snd kw) = MO_Custom) -> hp s' x = hp s x)).
Proof. intros E G g s l m u vs u' ws EO. exact (merge_objects_by E G EO (Some g) s l m u vs u' ws). Qed.
Print Assumptions C80_verdicts.

(** What the result contains, by key: [js] lists the argument's entries with their verdicts. *)
Theorem C80_lookup : forall (same : bytes -> bytes -> bool), (forall a b, same a b = same b a) ->
  (forall a b c, same a b = true -> same a c = same b c) ->
  forall v js k, pick same k (union_by same v js) =
    match pick same k v, pick same k js with
    | Some x, Some (y, MO_Normal) => Some (VArray [strip x; strip y])
    | Some _, Some (y, MO_Replace) => Some (strip y)
    | Some x, _ => Some x
    | None, Some (y, _) => Some (strip y)
    | None, None => None
    end.
Proof.
  intros same SY CG v w k. unfold union_by.
  assert (AP : forall (a b : list (bytes * value)), pick same k (a ++ b) = match pick same k a with Some x => Some x | None => pick same k b end).
  { induction a as [|x a IH]; intros b; cbn [app pick]; auto. destruct (same k (fst x)); auto. }
  rewrite AP. clear AP.
  assert (P1 : pick same k (map (fun kv => (fst kv, match pick same (fst kv) w with Some y => joined (snd kv) y | None => snd kv end)) v) =
    match pick same k v with Some x => Some match pick same k w with Some y => joined x y | None => x end | None => None end).
  { induction v as [|x v IH]; cbn [map pick fst snd]; auto. destruct (same k (fst x)) eqn:SK; auto.
    assert (Q : pick same (fst x) w = pick same k w).
    { clear IH. induction w as [|y w IH]; cbn [pick]; auto. rewrite (CG k (fst x) (fst y) SK), IH. reflexivity. }
    rewrite Q. reflexivity. }
  rewrite P1. clear P1. destruct (pick same k v) as [x|] eqn:PV.
  - destruct (pick same k w) as [[y []]|]; reflexivity.
  - assert (NV : forall kv, In kv v -> same k (fst kv) = false).
    { intros kv I. destruct (same k (fst kv)) eqn:SK; auto. exfalso. induction v as [|z v IH]; [destruct I|].
      cbn [pick] in PV. destruct (same k (fst z)) eqn:SZ; [discriminate|]. destruct I as [<-|I]; [congruence|auto]. }
    clear PV. induction w as [|y w IH]; cbn [filter map pick]; auto.
    destruct (existsb (fun kv' => same (fst kv') (fst y)) v) eqn:EX; cbn [negb].
    + apply existsb_exists in EX as (kv & I & SY'). rewrite IH.
      assert (K : same k (fst y) = false). { pose proof (NV kv I) as A. rewrite SY in A. rewrite SY in SY'. rewrite SY, (CG _ _ k SY'). exact A. }
      rewrite K. reflexivity.
    + cbn [map pick fst snd]. destruct (same k (fst y)); auto. destruct (snd y) as [z []]; reflexivity.
Qed.
Print Assumptions C80_lookup.

(** The first collision is announced under its key, as the argument spells it. *)
Theorem C80_first_path : forall E g ps k old new qs, pick (key_match E) k ps = Some old ->
  exists rest, asks E (Some g) [] ps ((k, new) :: qs) = g k old new :: rest.
Proof. intros E g ps k old new qs Q. cbn [asks]. rewrite Q. unfold decide. cbn [app]. eexists. reflexivity. Qed.
Print Assumptions C80_first_path.

(** Every later collision is announced under the keys of all collisions so far, joined by slashes,
    although none of them is nested in another. *)
Theorem C80_path_refuted : forall E g ps k1 o1 n1 k2 o2 n2 qs, k1 <> [] ->
  pick (key_match E) k1 ps = Some o1 -> pick (key_match E) k2 ps = Some o2 ->
  exists rest, asks E (Some g) [] ps ((k1, n1) :: (k2, n2) :: qs) = g k1 o1 n1 :: g (k1 ++ bs "/" ++ k2) o2 n2 :: rest.
Proof.
  intros E g ps k1 o1 n1 k2 o2 n2 qs NE Q1 Q2. cbn [asks]. rewrite Q1, Q2. unfold decide. cbn [app].
  destruct k1 as [|c k1]; [congruence|]. eexists. cbn [app]. rewrite <- app_assoc. reflexivity.
Qed.
Print Assumptions C80_path_refuted.

(** [{"a":7,"b":true}] and [{"b":null,"A":"x"}] with keys compared ignoring case. *)
Definition fn_ops : list op :=
  [ONewObject; OSetKey 5 (bs "a") TInt; OSetInt 6 7; OSetKeyValue 5 (bs "b") (Some 0%nat);
   ONewObject; OSetKeyValue 14 (bs "b") (Some 2%nat); OSetKey 14 (bs "A") TString; OSetString 15 (bs "x")].
Definition fn_st : st := st_of e1 g0 fn_ops.
Definition fn_right : list (bytes * value) := [(bs "b", VNull); (bs "A", VString (bs "x"))].
(** A callback that replaces what is announced as ["b"], combines what is announced as ["b/A"]. *)
Definition by_path (path : bytes) (_ _ : ptr) : merge_op :=
  if beq path (bs "b") then MO_Replace else if beq path (bs "b/A") then MO_Normal else MO_Custom.
Example C80_nonvacuous :
  wf fn_st /\ rep (hp fn_st) (Some 5%nat) left_value /\ rep (hp fn_st) (Some 14%nat) (VObject true fn_right) /\
  plive fn_st (Some 5%nat) /\ cloneable_graph fn_st 14 /\ separate fn_st 5 14 /\
  distinct_keys (key_match e1) fn_right /\ Forall (fun kv => clonable (snd kv)) fn_right /\
  judged fn_right (asks e1 (Some by_path) [] (pairs e1 fn_st 5) (c_kvs (hp fn_st 14))) =
    [(bs "b", (VNull, MO_Replace)); (bs "A", (VString (bs "x"), MO_Normal))] /\
  union_by (key_match e1) [(bs "a", VInt 0 7); (bs "b", VTrue)]
    [(bs "b", (VNull, MO_Replace)); (bs "A", (VString (bs "x"), MO_Normal))] =
    [(bs "a", VArray [VInt 0 7; VString (bs "x")]); (bs "b", VNull)] /\
  mergeable (VInt 0 7) MO_Normal /\ mergeable VTrue MO_Replace /\
  exists s', MergeWith e1 g0 9 fn_st (Some 5%nat) (Some 14%nat) (Some by_path) = Ok s' /\
    (map fst (c_kvs (hp s' 5)), c_dt (hp s' 6), option_map (fun x => c_dt (hp s' x)) (fst (ValueByName e1 s' 5 (bs "b")))) =
      ([bs "a"; bs "b"], TArray, Some TNull).
Proof.
  assert (W : wf fn_st) by (apply st_of_wf; vm_compute; reflexivity).
  assert (RL : forall x, reach (hp fn_st) 5 x -> In x [5; 6; 0]%nat) by (apply reach_in; [left; reflexivity|vm_compute; reflexivity]).
  assert (RM : forall x, reach (hp fn_st) 14 x -> In x [14; 15; 2]%nat) by (apply reach_in; [left; reflexivity|vm_compute; reflexivity]).
  split; [exact W|].
  split. { apply rep_obj_intro; [vm_compute; reflexivity|vm_compute; reflexivity|].
    replace (c_kvs (hp fn_st 5)) with [(bs "a", Some 6%nat); (bs "b", Some 0%nat)] by (vm_compute; reflexivity).
    constructor; [split; [reflexivity|]|constructor; [split; [reflexivity|]|constructor]]; cbn [snd].
    - eapply int_at; vm_compute; reflexivity.
    - apply rep_true. vm_compute. reflexivity. }
  split. { apply rep_obj_intro; [vm_compute; reflexivity|vm_compute; reflexivity|].
    replace (c_kvs (hp fn_st 14)) with [(bs "b", Some 2%nat); (bs "A", Some 15%nat)] by (vm_compute; reflexivity).
    constructor; [split; [reflexivity|]|constructor; [split; [reflexivity|]|constructor]]; cbn [snd].
    - apply rep_null. vm_compute. reflexivity.
    - apply str_at; vm_compute; reflexivity. }
  split. { intros x (y & Q & X). injection Q as <-. apply RL in X. repeat destruct X as [<-|X]; try (destruct X); apply live_of; vm_compute; reflexivity. }
  split. { intros x X. apply RM in X. repeat destruct X as [<-|X]; try (destruct X);
    (split; [apply live_of; vm_compute; reflexivity|]); intros C; try lia; exfalso; apply C; vm_compute; reflexivity. }
  split. { split.
    - intros i j p q NE Qi Qj. assert (EN : entries fn_st 5 = [Some 6%nat; Some 0%nat]) by (vm_compute; reflexivity). rewrite EN in Qi, Qj. clear EN.
      assert (BB : forall x, reach (hp fn_st) 0 x -> In x [0%nat]) by (apply reach_in; [left; reflexivity|vm_compute; reflexivity]).
      destruct i as [|[|i]], j as [|[|j]]; cbn in Qi, Qj; try (exfalso; exact (NE eq_refl)); try (destruct i; discriminate); try (destruct j; discriminate);
        injection Qi as <-; injection Qj as <-; intros x (y & Q & X) (z & Q' & Y); injection Q as <-; injection Q' as <-;
        [apply BB in Y; destruct Y as [<-|[]]; lia|apply BB in X; destruct X as [<-|[]]; lia].
    - intros x X Y. apply RL in X. apply RM in Y. cbn in X, Y. lia. }
  split. { repeat (constructor; [repeat constructor|]). constructor. }
  split. { repeat constructor. }
  split; [vm_compute; reflexivity|]. split; [vm_compute; reflexivity|]. split; [exact I|]. split; [discriminate|].
  apply ok_ex. vm_compute. reflexivity.
Qed.
(** The consequence: a callback that asks for ["A"] to be replaced, and for nothing else, changes
    nothing, since that key is announced as ["b/A"]. *)
Definition only_A (path : bytes) (_ _ : ptr) : merge_op := if beq path (bs "A") then MO_Replace else MO_Custom.
Theorem C80_key_never_announced_refuted :
  runs e1 g0 none_set st0 fn_ops fn_st /\
  exists s', MergeWith e1 g0 9 fn_st (Some 5%nat) (Some 14%nat) (Some only_A) = Ok s' /\
    (fst (ValueByName e1 s' 5 (bs "a")), Int e1 (hp s' 6)) = (Some 6%nat, 7).
Proof. split; [apply st_of_runs; vm_compute; reflexivity|]. apply ok_ex. vm_compute. reflexivity. Qed.
Print Assumptions C80_key_never_announced_refuted.

(** ** Colliding containers *)
(** Colliding arrays are not united, in spite of the comment on [MO_Normal]: [{"a":[7]}] merged with
    [{"a":["x"]}] keeps the array [[7]]. *)
Definition arrays_ops : list op :=
  [ONewObject; OSetKey 5 (bs "a") TArray; OSetIndex 6 0 TInt; OSetInt 7 7;
   ONewObject; OSetKey 14 (bs "a") TArray; OSetIndex 15 0 TString; OSetString 16 (bs "x")].
Theorem C80_nested_array_refuted : forall ic, let E := env0 ic in let s := st_of E g0 arrays_ops in
  runs E g0 none_set st0 arrays_ops s /\ c_arr (hp s 6) = [Some 7%nat] /\ c_arr (hp s 15) = [Some 16%nat] /\
  exists s', MergeWith E g0 9 s (Some 5%nat) (Some 14%nat) None = Ok s' /\
    (fst (ValueByName E s' 5 (bs "a")), c_arr (hp s' 6)) = (Some 6%nat, [Some 7%nat]).
Proof.
  intros ic E s. split; [apply st_of_runs; destruct ic; vm_compute; reflexivity|].
  split; [destruct ic; vm_compute; reflexivity|]. split; [destruct ic; vm_compute; reflexivity|].
  apply ok_ex. destruct ic; vm_compute; reflexivity.
Qed.
Print Assumptions C80_nested_array_refuted.

(** An array that collides with an object is emptied and turned into an object: [{"a":[7]}] merged with
    [{"a":{"k":0}}] is [{"a":{"k":0}}]. *)
Definition array_object_ops : list op :=
  [ONewObject; OSetKey 5 (bs "a") TArray; OSetIndex 6 0 TInt; OSetInt 7 7;
   ONewObject; OSetKey 14 (bs "a") TObject; OSetKey 15 (bs "k") TInt].
Theorem C80_array_lost_refuted : forall ic, let E := env0 ic in let s := st_of E g0 array_object_ops in
  runs E g0 none_set st0 array_object_ops s /\ c_dt (hp s 6) = TArray /\ c_arr (hp s 6) = [Some 7%nat] /\
  exists s', MergeWith E g0 9 s (Some 5%nat) (Some 14%nat) None = Ok s' /\
    (fst (ValueByName E s' 5 (bs "a")), c_dt (hp s' 6), c_arr (hp s' 6), map fst (c_kvs (hp s' 6))) =
      (Some 6%nat, TObject, [], [bs "k"]).
Proof.
  intros ic E s. split; [apply st_of_runs; destruct ic; vm_compute; reflexivity|].
  split; [destruct ic; vm_compute; reflexivity|]. split; [destruct ic; vm_compute; reflexivity|].
  apply ok_ex. destruct ic; vm_compute; reflexivity.
Qed.
Print Assumptions C80_array_lost_refuted.
