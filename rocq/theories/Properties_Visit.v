(** Property C81: [Visit] and [KeyNameByIndex].  Each theorem is followed by what it assumes and by a
    concrete case. *)
From Coq Require Import String.
From Verif Require Import Base Values Tactics Env0 HeapModel HeapSpec HeapBase HeapConf HeapGet
  ApiSpec HeapMap HeapCalls HeapObj HeapArr HeapForce HeapClone HeapEqual HeapMono HeapMerge HeapMergeObj
  VisitModel VisitThms Properties_Map Properties_Heap Properties_Clone Properties_Merge.

(** A callback that leaves the entries of the container alone is called on the entries in their order,
    on each at most once, up to and including the first on which it answers false, and on all if it never does. *)
Theorem C81_order : forall A (f : visitor A) I l a s fuel,
  tame f I l (c_kvs (hp s l)) (c_arr (hp s l)) -> I s -> (length (stored_entries s l) < fuel)%nat ->
  exists a' s' b shown rest, Visit f fuel a s l = Ok (a', s') /\ stored_entries s l = shown ++ rest /\
    called f a s shown b a' s' /\ (b = true -> rest = []).
Proof. exact @visit_order. Qed.
Print Assumptions C81_order.

(** [{"a":7,"b":true}] visited by a callback that empties every value and stops at ["b"]. *)
Definition emptier : visitor (list bytes) := fun a s k p =>
  Ok (negb (beq k (bs "b")), a ++ [k], match p with Some x => Reset s x TString | None => s end).
Definition visit_ops : list op :=
  [ONewObject; OSetKey 5 (bs "a") TInt; OSetInt 6 7; OSetKey 5 (bs "b") TInt; OSetKey 5 (bs "c") TInt].
Definition visit_st : st := st_of e1 g0 visit_ops.
Definition visit_I : st -> Prop := fun s => hp s 5%nat = hp visit_st 5%nat.
Example C81_order_nonvacuous : tame emptier visit_I 5 (c_kvs (hp visit_st 5)) (c_arr (hp visit_st 5)) /\ visit_I visit_st /\
  map fst (stored_entries visit_st 5) = [bs "a"; bs "b"; bs "c"] /\
  exists s', Visit emptier 4 [] visit_st 5 = Ok ([bs "a"; bs "b"], s') /\ c_dt (hp s' 6) = TString.
Proof.
  split; [|split; [reflexivity|split; [vm_compute; reflexivity|]]].
  - split; [intros s ->; split; reflexivity|]. intros a s k p HI Q. unfold emptier. eexists _, _, _. split; [reflexivity|].
    unfold visit_I in *. destruct p as [x|]; auto. unfold Reset. destruct (ReadOnly x); auto. cbn [set_cell hp].
    rewrite upd_other; auto. intros EQ. subst x.
    replace (c_kvs (hp visit_st 5)) with [(bs "a", Some 6%nat); (bs "b", Some 14%nat); (bs "c", Some 22%nat)] in Q by (vm_compute; reflexivity).
    replace (c_arr (hp visit_st 5)) with (@nil ptr) in Q by (vm_compute; reflexivity).
    destruct Q as [Q|[_ []]]. cbn in Q. intuition congruence.
  - destruct (Visit emptier 4 [] visit_st 5) as [[a s']| | |] eqn:Q; [|exfalso; revert Q; vm_compute; discriminate..].
    exists s'. assert (X : match Visit emptier 4 [] visit_st 5 with Ok (a, s') => Some (a, c_dt (hp s' 6)) | _ => None end = Some ([bs "a"; bs "b"], TString)) by (vm_compute; reflexivity).
    rewrite Q in X. injection X as -> ->. auto.
Qed.

(** A callback that removes each entry it is shown is shown every second entry only, and the others
    stay. *)
Theorem C81_remove_refuted : forall E s l fuel, env_ok E -> c_dt (hp s l) = TObject -> c_unesc (hp s l) = true ->
  distinct_keys (key_match E) (c_kvs (hp s l)) -> (length (c_kvs (hp s l)) < fuel)%nat ->
  exists s', Visit (remover E l) fuel tt s l = Ok (tt, s') /\
    c_dt (hp s' l) = TObject /\ c_kvs (hp s' l) = every_other (tl (c_kvs (hp s l))) /\ (forall x, x <> l -> hp s' x = hp s x).
Proof. intros E s l fuel EO. exact (visit_remover E EO s l fuel). Qed.
Print Assumptions C81_remove_refuted.
Example C81_remove_nonvacuous : c_dt (hp visit_st 5) = TObject /\ c_unesc (hp visit_st 5) = true /\
  distinct_keys (key_match e1) (c_kvs (hp visit_st 5)) /\
  map fst (every_other (tl (c_kvs (hp visit_st 5)))) = [bs "b"].
Proof.
  repeat (split; [vm_compute; reflexivity|]). split; [|vm_compute; reflexivity].
  replace (c_kvs (hp visit_st 5)) with [(bs "a", Some 6%nat); (bs "b", Some 14%nat); (bs "c", Some 22%nat)] by (vm_compute; reflexivity).
  repeat constructor.
Qed.

(** A callback that appends to the array it is shown never sees the end. *)
Theorem C81_append_diverges : forall t s l fuel, (5 <= l < nx s)%nat -> c_dt (hp s l) = TArray -> c_arr (hp s l) <> [] ->
  Visit (appender l t) fuel tt s l = OutOfFuel.
Proof.
  intros t s l fuel L T NE. unfold Visit. rewrite T. apply visit_appender; try lia; auto.
  destruct (c_arr (hp s l)); [congruence|cbn; lia].
Qed.
Print Assumptions C81_append_diverges.
Example C81_append_nonvacuous : let s := st_of e1 g0 [ONewArray; OSetIndex 5 0 TInt] in
  (5 <= 5 < nx s)%nat /\ c_dt (hp s 5) = TArray /\ c_arr (hp s 5) <> [].
Proof. cbv zeta. split; [split; vm_compute; lia|]. split; [vm_compute; reflexivity|vm_compute; discriminate]. Qed.

(** The key [KeyNameByIndex] (and [Visit]) shows is the one [Items] shows once the keys of the object
    are unescaped, or if there is nothing to unescape in it. *)
Theorem C81_key_name : forall E s l i kv, c_dt (hp s l) = TObject -> nth_error (c_kvs (hp s l)) i = Some kv ->
  KeyNameByIndex s l (Z.of_nat i) = fst kv /\
  fst (fst (Items E s l (Z.of_nat i))) = (if c_unesc (hp s l) then fst kv else x_unescape E (fst kv)).
Proof.
  intros E s l i kv T Q. assert (L : (i < length (c_kvs (hp s l)))%nat) by (apply nth_error_Some; congruence).
  unfold KeyNameByIndex, Items. rewrite T.
  replace ((0 <=? Z.of_nat i) && (Z.of_nat i <? zlen (c_kvs (hp s l)))) with true
    by (symmetry; apply andb_true_iff; rewrite Z.leb_le, Z.ltb_lt; unfold zlen; lia).
  rewrite Nat2Z.id. cbn [fst snd]. split; [rewrite (nth_error_nth _ _ _ Q); reflexivity|].
  unfold unescape_keys. destruct (c_unesc (hp s l)); [rewrite (nth_error_nth _ _ _ Q); reflexivity|].
  rewrite (nth_error_nth _ _ (x := (x_unescape E (fst kv), snd kv))); [reflexivity|].
  rewrite nth_error_map, Q. reflexivity.
Qed.
Print Assumptions C81_key_name.
(** Otherwise it depends on what was looked up before: the key of the parsed document [{"a\/":1}] is [a\/]
    until another key is looked up in vain, and [a/] from then on. *)
Definition slash_ops : list op := [OFromJson None (bs "{""a\/"":1}")].
Definition slash_st : st := st_of e1 g0 slash_ops.
Theorem C81_key_name_refuted :
  runs e1 g0 none_set st0 slash_ops slash_st /\ KeyNameByIndex slash_st 5 0 = bs "a\/" /\
  fst (ValueByName e1 slash_st 5 (bs "x")) = None /\
  KeyNameByIndex (snd (ValueByName e1 slash_st 5 (bs "x"))) 5 0 = bs "a/".
Proof. split; [apply st_of_runs; vm_compute; reflexivity|]. repeat split; vm_compute; reflexivity. Qed.
Print Assumptions C81_key_name_refuted.
(** A callback that looks something up in the object it visits is shown the first key of
    [{"a\/":1,"b\/":2}] escaped and the second unescaped. *)
Definition looker (l : nat) : visitor (list bytes) := fun a s k _ => Ok (true, a ++ [k], snd (ValueByName e1 s l (bs "x"))).
Definition slashes_ops : list op := [OFromJson None (bs "{""a\/"":1,""b\/"":2}")].
Theorem C81_lookup_refuted : let s := st_of e1 g0 slashes_ops in runs e1 g0 none_set st0 slashes_ops s /\
  exists s', Visit (looker 5) 3 [] s 5 = Ok ([bs "a\/"; bs "b/"], s').
Proof.
  split; [apply st_of_runs; vm_compute; reflexivity|].
  assert (X : ok_map fst (Visit (looker 5) 3 [] (st_of e1 g0 slashes_ops) 5) = Some [bs "a\/"; bs "b/"]) by (vm_compute; reflexivity).
  apply ok_ex in X as ([a s'] & X & Y). cbn [fst] in Y. subst a. eauto.
Qed.
Print Assumptions C81_lookup_refuted.
