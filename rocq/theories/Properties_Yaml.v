(** Properties C44-C47, C57-C60: YAML.  Each theorem is followed by what it assumes and by a concrete case. *)
From Coq Require Import String.
From Verif Require Import Base Values Tactics Env0 HeapModel HeapSpec HeapBase HeapConf HeapGet
  ApiSpec HeapMap HeapCalls HeapObj YamlModel YamlSpec YamlThms YamlTerm YamlPool YamlConf YamlFlat YamlMerge HeapView
  Properties_Map Properties_Clone Properties_Merge.

(** The result without the parser that goes back to the pool. *)
Definition outcome (r : res (option gerr * ptr * yp * st)) : res (option gerr * ptr * st) :=
  match r with
  | Ok (e, v, _, s) => Ok (e, v, s)
  | Err e => Err e
  | Panic => Panic
  | OutOfFuel => OutOfFuel
  end.
Definition load_outcome (r : res (option gerr * yp * st)) : res (option gerr * st) :=
  match r with
  | Ok (e, _, s) => Ok (e, s)
  | Err e => Err e
  | Panic => Panic
  | OutOfFuel => OutOfFuel
  end.

(** Test documents. *)
Definition y0 := env0 false.
Definition gr : nat -> nat := fun _ => 4%nat.
Definition nopool : st -> option nat := fun _ => None.
Definition lines (l : list string) : bytes := doc (map bs l).

(** ** C44 *)
(** A document without an asterisk (no alias, no merge) is parsed in a number of rounds bounded by
    its lines, unless its last line has exactly one byte. *)
Theorem C44_terminates : forall E G pick cf n p s ls use, ls <> [] -> Forall no_newline ls ->
  ~ In 42 (doc ls) -> List.length (last ls []) <> 1%nat -> (List.length ls <= n)%nat ->
  NewValueFromYaml E G pick cf n p s (doc ls) use <> OutOfFuel.
Proof.
  intros E G pick cf n p s ls use NE F NS NL LE. unfold NewValueFromYaml.
  set (p0 := mkYp _ _ _ _ _ _ _ _).
  assert (H : ends (yparse E G pick cf n p0 s (doc ls))).
  { destruct (doc ls) as [|c b] eqn:Q; [discriminate|]. rewrite <- Q in *.
    rewrite parse_run; auto; [|rewrite Q; discriminate].
    destruct (Nat.eqb_spec (List.length (last ls [])) 1); [contradiction|].
    apply ends_run. apply Forall_forall. intros l I X. apply NS. clear - I X.
    induction ls as [|a ls IH]; [contradiction|]. destruct ls as [|b ls].
    - destruct I as [->|[]]. exact X.
    - cbn [doc]. apply in_or_app. destruct I as [->|I]; [left; auto|right; right; apply IH; auto]. }
  destruct (yparse E G pick cf n p0 s (doc ls)) as [[[e p1] s1]| | |]; cbn [bind]; try discriminate. contradiction.
Qed.
Print Assumptions C44_terminates.

(** Every byte string has lines, so the theorem covers every input without an asterisk. *)
Theorem C44_all_inputs : forall b, exists ls, ls <> [] /\ Forall no_newline ls /\ doc ls = b.
Proof. exact doc_exists. Qed.
Print Assumptions C44_all_inputs.
Example C44_terminates_case : let ls := map bs ["a: x"; "b: y"; ""]%string in
  ls <> [] /\ Forall no_newline ls /\ ~ In 42 (doc ls) /\ List.length (last ls []) <> 1%nat.
Proof.
  cbv zeta. split; [discriminate|]. split; [|split; [|discriminate]].
  - repeat constructor; cbv; intuition discriminate.
  - cbv. intuition discriminate.
Qed.

(** A last line of exactly one byte, without newline: if nothing goes wrong before, the parser runs for ever. *)
Theorem C44_short_tail_refuted : forall E G pick cf n p s ls c use, Forall no_newline ls -> c <> 10 ->
  forall m r p1 s1, NewValueFromYaml E G pick cf m p s (doc (ls ++ [[]])) use = Ok (None, r, p1, s1) ->
  (List.length ls < m)%nat ->
  NewValueFromYaml E G pick cf n p s (doc (ls ++ [[c]])) use = OutOfFuel.
Proof.
  intros E G pick cf n p s ls c use F NC m r p1 s1 H LM. unfold NewValueFromYaml in *.
  set (p0 := mkYp _ _ _ _ _ _ _ _) in *.
  assert (MONO : forall n', (S (List.length ls) <= n')%nat -> yparse E G pick cf n' p0 s (doc (ls ++ [[c]])) = OutOfFuel).
  { intros n' LN. rewrite parse_run.
    - rewrite last_last. cbn [List.length Nat.eqb]. rewrite run_app.
      assert (R : exists p2 s2, run E G pick cf (started p0) s ls = Ok (None, p2, s2)).
      { destruct ls as [|l ls']; [cbn [run]; eauto|].
        destruct (doc ((l :: ls') ++ [[]])) as [|z b] eqn:QD.
        { destruct l; cbn [app doc] in QD; destruct (ls' ++ [[]]) eqn:Q2; try discriminate; destruct ls'; discriminate. }
        rewrite <- QD in H. rewrite parse_run in H.
        - rewrite last_last in H. cbn [List.length Nat.eqb] in H. rewrite run_app in H.
          destruct (run E G pick cf (started p0) s (l :: ls')) as [[[[e|] p2] s2]| | |]; cbn [bind] in H; try discriminate. eauto.
        - destruct (l :: ls'); discriminate.
        - rewrite QD; discriminate.
        - apply Forall_app. split; auto. repeat constructor. intros [].
        - rewrite app_length. cbn [List.length]. cbn [List.length] in LM. lia. }
      destruct R as (p2 & s2 & R). rewrite R. cbn [bind run List.length Nat.ltb Nat.leb stuck]. reflexivity.
    - destruct ls; discriminate.
    - destruct ls as [|l ls']; [discriminate|]. destruct l; cbn [app doc]; destruct (ls' ++ [[c]]) eqn:Q; try discriminate.
      destruct ls'; discriminate.
    - apply Forall_app. split; auto. repeat constructor. intros [X|[]]. auto.
    - rewrite app_length. cbn [List.length]. lia. }
  destruct (Nat.leb_spec (S (List.length ls)) n) as [L|L].
  - rewrite (MONO n L). reflexivity.
  - assert (LT : yparse E G pick cf n p0 s (doc (ls ++ [[c]])) = OutOfFuel).
    { pose proof (MONO (S (List.length ls)) (Nat.le_refl _)) as M. unfold yparse in *. destruct (doc (ls ++ [[c]])); [discriminate|].
      refine (loop_less E G pick cf n _ _ _ _ _ _ M). lia. }
    rewrite LT. reflexivity.
Qed.
Print Assumptions C44_short_tail_refuted.
Example C44_short_tail_case :
  (let ls := map bs ["a: x"]%string in Forall no_newline ls) /\
  outcome (NewValueFromYaml y0 gr nopool 9 9 fresh_parser st0 (lines ["a: x"; "b"]%string) true) = OutOfFuel /\
  ok_map (fun r => fst (fst (fst r))) (NewValueFromYaml y0 gr nopool 9 9 fresh_parser st0 (lines ["a: x"; ""]%string) true) = Some None.
Proof.
  split; [repeat constructor; cbv; intuition discriminate|]. split; vm_compute; reflexivity.
Qed.

(** An object merged into itself: for ever, too. *)
Lemma self_merge_line : forall E G pick cf p s m o rest z, stack p = m :: mkNode false z o :: rest -> y_map m = false ->
  last_sp p = 2 -> get_use (uses p) (bs "x") = Some o -> c_dt (hp s o) = TObject ->
  AddFrom G cf s o o (y_cache p) = OutOfFuel ->
  parseLine E G pick cf p s (bs "  <<: *x") 2 = OutOfFuel.
Proof.
  intros E G pick cf [fe lm uc sp rt yc stk us] s m o rest z ST MM LS GU T AF. cbn [stack last_sp uses y_cache] in *. subst.
  unfold parseLine. change (skipn 2 (bs "  <<: *x")) with [60; 60; 58; 32; 42; 120]. cbv iota beta zeta.
  change (60 =? 35) with false. change (index_hash [60; 60; 58; 32; 42; 120]) with (@None nat). cbv iota beta zeta.
  cbn [stack first_el last_sp]. rewrite MM. replace (if fe && false then 2 + 2 else 2) with 2 by (destruct fe; reflexivity).
  change (Z.of_nat 2) with 2. change (2 <? 2) with false. change (2 =? 2) with true. cbv iota.
  change (60 =? 45) with false. cbv iota. cbn [popLast skipn].
  unfold parseObject, set_stack. cbn [stack first_el last_sp y_map y_v].
  replace (if fe && false then 2 + 2 else 2) with 2 by (destruct fe; reflexivity).
  change (splitKv [60; 60; 58; 32; 42; 120]) with ([60; 60], [42; 120], true). cbv iota beta zeta. cbn [negb andb].
  change (2 =? 2) with true. cbv iota. unfold mergeObj. change (beq [60; 60] b_merge) with true. cbv iota.
  change (42 =? 42) with true. cbv iota. change (anchor_name [42; 120]) with [120]. cbv iota. cbn [uses set_first y_cache].
  change (bs "x") with [120] in GU. rewrite GU, T. change (vt_eqb TObject TObject) with true. cbv iota. rewrite AF. reflexivity.
Qed.

Definition start_p : yp := started (mkYp false false true 0 None None [] []).
Notation after cf ls := (run y0 gr nopool cf start_p st0 (map bs ls)).
Definition st_after (ls : list string) : st := match after 0 ls with Ok (_, _, s) => s | _ => st0 end.
Definition p_after (ls : list string) : yp := match after 0 ls with Ok (_, p, _) => p | _ => fresh_parser end.

Lemma run_fine E G pick cf ls : forall p s, wf s -> okp none_set none_set s p -> fine none_set none_set s (run E G pick cf p s ls).
Proof.
  induction ls as [|l ls IH]; intros p s I O; cbn [run].
  - apply fine_ok; auto.
  - destruct (_ <? 2)%nat; [apply IH; auto|].
    pose proof (line_fine none_set none_set E G pick cf p s l (lead l) I O) as F.
    destruct (parseLine E G pick cf p s l (lead l)) as [[[[e|] p1] s1]| | |]; cbn [bind]; [exact F| |exact Logic.I..].
    destruct F as [T O1]. specialize (IH p1 s1 (tr_inv _ _ _ _ T) O1).
    destruct (run E G pick cf p1 s1 ls) as [[[e p2] s2]| | |]; [|exact Logic.I..].
    destruct IH as [T2 O2]. exact (fine_from none_set none_set s s1 _ _ _ T T2 O2).
Qed.
Lemma after_wf ls p s : after 0 ls = Ok (None, p, s) -> wf s /\ okp none_set none_set s p.
Proof.
  intros H. assert (O : okp none_set none_set st0 start_p) by (constructor; [intros ? Q; discriminate|intros ? Q; discriminate|constructor|constructor]).
  pose proof (run_fine y0 gr nopool 0 (map bs ls) start_p st0 wf_st0 O) as F.
   rewrite H in F. destruct F as [T O']. split; [apply T|exact O'].
Qed.

Definition self_doc : list string := ["a: &x"; "  b: q"; "  <<: *x"]%string.
Definition self_two : list string := ["a: &x"; "  b: q"]%string.
Lemma self_after cf : after cf self_two = Ok (None, p_after self_two, st_after self_two).
Proof. vm_compute. reflexivity. Qed.
Lemma self_state : wf (st_after self_two) /\ live (st_after self_two) 6 /\ live (st_after self_two) 7 /\
  okp none_set none_set (st_after self_two) (p_after self_two).
Proof.
  destruct (after_wf _ _ _ (self_after 0)) as [W O]. split; [exact W|].
  split; [apply live_of; vm_compute; reflexivity|]. split; [apply live_of; vm_compute; reflexivity|exact O].
Qed.
Lemma self_cells : c_dt (hp (st_after self_two) 6) = TObject /\ c_dt (hp (st_after self_two) 7) = TString /\
  c_kvs (hp (st_after self_two) 6) = [(bs "b", Some 7%nat)] /\
  last_sp (p_after self_two) = 2 /\ get_use (uses (p_after self_two)) (bs "x") = Some 6%nat.
Proof. vm_compute. repeat split. Qed.
Lemma self_stack : exists m z rest, stack (p_after self_two) = m :: mkNode false z 6 :: rest /\ y_map m = false.
Proof. do 3 eexists. split; vm_compute; reflexivity. Qed.
Lemma self_line cf : parseLine y0 gr nopool cf (p_after self_two) (st_after self_two) (bs "  <<: *x") 2 = OutOfFuel.
Proof.
  destruct self_state as (W & L6 & L7 & O). destruct self_cells as (T6 & T7 & K & LS & GU). destruct self_stack as (m & z & rest & ST & MM).
  generalize dependent (st_after self_two). generalize dependent (p_after self_two). intros p LS GU ST s W L6 L7 O T6 T7 K.
  refine (self_merge_line y0 gr nopool cf p s m 6 rest z ST MM LS GU T6 _).
  apply self_AddFrom; [exact W|exact L6|apply O|exact T6| |rewrite K; discriminate].
  intros k q I. rewrite K in I. destruct I as [I|[]]. injection I as <- <-. exists 7%nat. split; [reflexivity|].
  split; [exact L7|]. split; [discriminate|]. rewrite T7. split; discriminate.
Qed.
Lemma self_run cf : run y0 gr nopool cf start_p st0 (map bs self_doc) = OutOfFuel.
Proof.
  assert (Q : map bs self_doc = map bs self_two ++ [bs "  <<: *x"]) by reflexivity.
  assert (LL : (List.length (bs "  <<: *x") <? 2)%nat = false) by reflexivity.
  assert (LD : lead (bs "  <<: *x") = 2%nat) by reflexivity.
  pose proof (self_after cf) as Hc.  pose proof (self_line cf) as SL.
  generalize dependent (p_after self_two). generalize dependent (st_after self_two). generalize st0 start_p. intros s0 p0 s p Hc SL.
  rewrite Q, run_app, Hc. cbn [bind run]. rewrite LL, LD, SL. reflexivity.
Qed.
Lemma diverges E G pick cf n p s ls use : ls <> [] -> doc ls <> [] -> Forall no_newline ls ->
  run E G pick cf (started (mkYp (first_el p) (last_merge p) use (last_sp p) (y_root p) (y_cache p) (stack p) (uses p))) s ls = OutOfFuel ->
  NewValueFromYaml E G pick cf n p s (doc ls) use = OutOfFuel.
Proof.
  intros NE ND F R. unfold NewValueFromYaml. set (p0 := mkYp _ _ _ _ _ _ _ _) in *. clearbody p0.
  assert (PAR : forall n', (List.length ls <= n')%nat -> yparse E G pick cf n' p0 s (doc ls) = OutOfFuel).
  { intros n' L. rewrite parse_run; auto. rewrite R. destruct (_ =? _)%nat; reflexivity. }
  destruct (Nat.leb_spec (List.length ls) n) as [L|L]; [rewrite (PAR n L); reflexivity|].
  pose proof (PAR _ (le_n _)) as M. unfold yparse in *. destruct (doc ls); [congruence|].
  rewrite (loop_less E G pick cf n _ _ _ _ _ (Nat.lt_le_incl _ _ L) M). reflexivity.
Qed.
Theorem C44_self_merge_refuted : forall cf n,
  NewValueFromYaml y0 gr nopool cf n fresh_parser st0 (lines self_doc) true = OutOfFuel.
Proof.
  intros cf n. refine (diverges y0 gr nopool cf n fresh_parser st0 (map bs self_doc) true _ _ _ (self_run cf)); [discriminate|discriminate|].
  repeat constructor; cbv; intuition discriminate.
Qed.
Print Assumptions C44_self_merge_refuted.

(** ** C59 *)
(** [v.AddFrom(v, c)] on an object with entries, none of them a container, never returns. *)
Theorem C59_object_refuted : forall G fuel s l c, wf s -> live s l -> (forall k, c = Some k -> (k < nc s)%nat) ->
  c_dt (hp s l) = TObject -> c_kvs (hp s l) <> [] ->
  (forall k p, In (k, p) (c_kvs (hp s l)) -> exists y, p = Some y /\ live s y /\ y <> l /\
     c_dt (hp s y) <> TObject /\ c_dt (hp s y) <> TArray) ->
  AddFrom G fuel s l l c = OutOfFuel.
Proof.
  intros G fuel s l c W L OC T NE LV. apply self_AddFrom; auto.
  intros k Q. split; [apply OC; exact Q|intros []].
Qed.
Print Assumptions C59_object_refuted.
Theorem C59_array_refuted : forall G fuel s l c, wf s -> live s l -> c_dt (hp s l) = TArray -> c_arr (hp s l) <> [] ->
  (forall p, In p (c_arr (hp s l)) -> exists y, p = Some y /\ live s y /\ y <> l /\
     c_dt (hp s y) <> TObject /\ c_dt (hp s y) <> TArray) ->
  AddFrom G fuel s l l c = OutOfFuel.
Proof. intros G fuel s l c W L T NE LV. apply self_AddFrom_arr; auto. Qed.
Print Assumptions C59_array_refuted.
Definition obj1 : list op := [ONewObject; OSetKey 5 (bs "a") TInt; OSetInt 6 7].
Definition arr1 : list op := [ONewArray; OSetIndexValue 5 0 (Some 2%nat)].
Example C59_object_case : let s := st_of y0 gr obj1 in
  wf s /\ live s 5 /\ c_dt (hp s 5) = TObject /\ c_kvs (hp s 5) = [(bs "a", Some 6%nat)] /\ live s 6 /\ c_dt (hp s 6) = TInt.
Proof.
  cbv zeta. split; [apply st_of_wf; vm_compute; reflexivity|]. split; [apply live_of; vm_compute; reflexivity|].
  split; [vm_compute; reflexivity|]. split; [vm_compute; reflexivity|]. split; [apply live_of; vm_compute; reflexivity|vm_compute; reflexivity].
Qed.
Example C59_array_case : let s := st_of y0 gr arr1 in
  wf s /\ live s 5 /\ c_dt (hp s 5) = TArray /\ c_arr (hp s 5) = [Some 2%nat] /\ live s 2 /\ c_dt (hp s 2) = TNull.
Proof.
  cbv zeta. split; [apply st_of_wf; vm_compute; reflexivity|]. split; [apply live_of; vm_compute; reflexivity|].
  split; [vm_compute; reflexivity|]. split; [vm_compute; reflexivity|]. split; [apply live_of; vm_compute; reflexivity|vm_compute; reflexivity].
Qed.

(** ** C45 *)
(** A line of two or more blanks panics, whatever follows, unless an earlier line is in error or panics. *)
Theorem C45_blank_line_refuted : forall E G pick cf n p s a k b use, Forall no_newline (a ++ [blanks k] ++ b) ->
  (2 <= k)%nat -> (List.length (a ++ [blanks k] ++ b) <= n)%nat ->
  forall m r p1 s1, NewValueFromYaml E G pick cf m p s (doc (a ++ [[]])) use = Ok (None, r, p1, s1) -> (List.length a < m)%nat ->
  NewValueFromYaml E G pick cf n p s (doc (a ++ [blanks k] ++ b)) use = Panic.
Proof.
  intros E G pick cf n p s a k b use F K LE m r p1 s1 H LM. unfold NewValueFromYaml in *.
  set (p0 := mkYp _ _ _ _ _ _ _ _) in *.
  assert (FA : Forall no_newline a) by (apply Forall_app in F; apply F).
  assert (R : exists p2 s2, run E G pick cf (started p0) s a = Ok (None, p2, s2)).
  { destruct a as [|l a']; [cbn [run]; eauto|].
    assert (QD : doc ((l :: a') ++ [[]]) <> []).
    { destruct l; cbn [app doc]; destruct (a' ++ [[]]) eqn:Q2; try discriminate. destruct a'; discriminate. }
    rewrite parse_run in H.
    - rewrite last_last in H. cbn [List.length Nat.eqb] in H. rewrite run_app in H.
      destruct (run E G pick cf (started p0) s (l :: a')) as [[[[e|] p2] s2]| | |]; cbn [bind] in H; try discriminate. eauto.
    - discriminate.
    - exact QD.
    - apply Forall_app. split; auto. repeat constructor. intros [].
    - rewrite app_length. cbn [List.length] in *. lia. }
  destruct R as (p2 & s2 & R).
  assert (RA : run E G pick cf (started p0) s (a ++ [blanks k] ++ b) = Panic).
  { rewrite run_app, R. cbn [bind app run].
    assert (LB : List.length (blanks k) = k) by apply repeat_length. rewrite LB.
    destruct (Nat.ltb_spec k 2); [lia|].
    assert (LD : lead (blanks k) = k).
    { rewrite <- (app_nil_r (blanks k)) at 1. apply lead_blanks. discriminate. }
    rewrite LD. unfold parseLine. rewrite <- LB at 1. rewrite skipn_all. reflexivity. }
  rewrite parse_run; auto.
  - rewrite RA. destruct (_ =? _)%nat; reflexivity.
  - destruct a; discriminate.
  - destruct a as [|l a]; cbn [app].
    + destruct k; [lia|]. cbn [blanks repeat doc]. destruct b; discriminate.
    + destruct l; cbn [doc]; destruct (a ++ blanks k :: b) eqn:Q; try discriminate. destruct a; discriminate.
Qed.
Print Assumptions C45_blank_line_refuted.
Example C45_blank_line_case :
  outcome (NewValueFromYaml y0 gr nopool 9 9 fresh_parser st0 (lines ["a: x"; "  "; "b: y"; ""]%string) true) = Panic /\
  ok_map (fun r => fst (fst (fst r))) (NewValueFromYaml y0 gr nopool 9 9 fresh_parser st0 (lines ["a: x"; ""]%string) true) = Some None.
Proof. split; vm_compute; reflexivity. Qed.

(** An empty line, or one of a single byte, makes no difference before the last line. *)
Theorem C45_short_line_skipped : forall E G pick cf n p s a l b use, Forall no_newline (a ++ l :: b) ->
  (List.length l <= 1)%nat -> b <> [] -> doc (a ++ b) <> [] -> (List.length (a ++ l :: b) <= n)%nat ->
  NewValueFromYaml E G pick cf n p s (doc (a ++ l :: b)) use = NewValueFromYaml E G pick cf n p s (doc (a ++ b)) use.
Proof.
  intros E G pick cf n p s a l b use F LL NB ND LE. unfold NewValueFromYaml.
  set (p0 := mkYp _ _ _ _ _ _ _ _).
  assert (LS : last (a ++ l :: b) [] = last (a ++ b) []).
  { rewrite !last_app' by (auto; discriminate). destruct b; [congruence|]. reflexivity. }
  assert (RA : run E G pick cf (started p0) s (a ++ l :: b) = run E G pick cf (started p0) s (a ++ b)).
  { rewrite !run_app. destruct (run E G pick cf (started p0) s a) as [[[[e|] p1] s1]| | |]; cbn [bind]; auto.
    cbn [run]. destruct (Nat.ltb_spec (List.length l) 2); [reflexivity|lia]. }
  assert (P2 : yparse E G pick cf n p0 s (doc (a ++ l :: b)) = yparse E G pick cf n p0 s (doc (a ++ b))).
  { apply Forall_app in F as [FA FB]. inversion FB; subst. rewrite !parse_run; auto.
    - rewrite LS, RA. reflexivity.
    - destruct a; [exact NB|discriminate].
    - apply Forall_app; auto.
    - rewrite app_length in *. cbn [List.length] in LE. lia.
    - destruct a; discriminate.
    - destruct a as [|x a]; cbn [app].
      + destruct l; cbn [doc]; destruct b; try discriminate; congruence.
      + destruct x; cbn [doc]; destruct (a ++ l :: b) eqn:Q; try discriminate. destruct a; discriminate.
    - apply Forall_app; auto. }
  rewrite P2. reflexivity.
Qed.
Print Assumptions C45_short_line_skipped.
Example C45_short_line_case : let a := [bs "a: x"] in let b := [bs "b: y"; []] in
  Forall no_newline (a ++ [32] :: b) /\ b <> [] /\ doc (a ++ b) <> [] /\
  ok_map (fun r => fst (fst (fst r))) (NewValueFromYaml y0 gr nopool 9 9 fresh_parser st0 (doc (a ++ [32] :: b)) true) = Some None.
Proof.
  cbv zeta. split; [repeat constructor; cbv; intuition discriminate|]. split; [discriminate|]. split; [discriminate|vm_compute; reflexivity].
Qed.

(** ** C46 *)
(** Parsers that can be in the pool: new ones, and those put back by the two entry points, after any
    earlier parses of anything. *)
Inductive pooled : yp -> Prop :=
| pooled_new : pooled fresh_parser
| pooled_value E G pick cf n p s b use e r p' s' : pooled p ->
    NewValueFromYaml E G pick cf n p s b use = Ok (e, r, p', s') -> pooled p'
| pooled_load E G pick cf n p s l b e p' s' : pooled p ->
    LoadFromYaml E G pick cf n p s l b = Ok (e, p', s') -> pooled p'.
Lemma pooled_empty p : pooled p -> y_root p = None /\ y_cache p = None /\ stack p = [] /\ uses p = [].
Proof.
  induction 1 as [|E G pick cf n p s b use e r p' s' H IH Q|E G pick cf n p s l b e p' s' H IH Q].
  - auto.
  - unfold NewValueFromYaml in Q. apply bind_ok in Q as ([[e1 p1] s1] & Q1 & Q). injection Q as <- <- <- <-. auto.
  - unfold LoadFromYaml in Q. apply bind_ok in Q as (s1 & Q1 & Q). destruct (drop_ws b).
    + injection Q as <- <- <-. exact IH.
    + cbv zeta in Q. apply bind_ok in Q as ([[e1 p1] s2] & Q2 & Q). injection Q as <- <- <-. auto.
Qed.
Theorem C46_value : forall E G pick cf n p s b use, pooled p ->
  outcome (NewValueFromYaml E G pick cf n p s b use) = outcome (NewValueFromYaml E G pick cf n fresh_parser s b use).
Proof.
  intros E G pick cf n p s b use P. destruct (pooled_empty p P) as (R & C & S0 & U). unfold NewValueFromYaml.
  set (p0 := mkYp (first_el p) _ _ _ _ _ _ _). set (q0 := mkYp (first_el fresh_parser) _ _ _ _ _ _ _).
  destruct b as [|c b].
  { unfold yparse. cbn [bind outcome p0 q0 y_root fresh_parser]. rewrite R. reflexivity. }
  assert (H : rel done (yparse E G pick cf n p0 s (c :: b)) (yparse E G pick cf n q0 s (c :: b))).
  { apply parse_init; auto; try discriminate. right. cbn [stack p0]. rewrite S0. constructor. }
  destruct (yparse E G pick cf n p0 s (c :: b)) as [[[e1 p1] s1]| | |], (yparse E G pick cf n q0 s (c :: b)) as [[[e2 p2] s2]| | |];
    cbn [rel] in H; try contradiction; cbn [bind outcome]; try congruence.
  destruct H as (H1 & H2 & H3). cbn [fst snd] in H1, H2, H3. subst. rewrite (m_root _ _ H2). reflexivity.
Qed.
Print Assumptions C46_value.
Theorem C46_load : forall E G pick cf n p s l b, pooled p ->
  load_outcome (LoadFromYaml E G pick cf n p s l b) = load_outcome (LoadFromYaml E G pick cf n fresh_parser s l b).
Proof.
  intros E G pick cf n p s l b P. destruct (pooled_empty p P) as (R & C & S0 & U). unfold LoadFromYaml.
  destruct (Clear s l) as [s1| | |]; cbn [bind]; try reflexivity. destruct (drop_ws b) as [|c d]; [reflexivity|]. cbv zeta.
  set (s2 := Reset s1 l (if c =? 45 then TArray else TObject)).
  set (p0 := mkYp (first_el p) _ _ _ _ _ _ _). set (q0 := mkYp (first_el fresh_parser) _ _ _ _ _ _ _).
  assert (H : rel done (yparse E G pick cf n p0 s2 (c :: d)) (yparse E G pick cf n q0 s2 (c :: d))).
  { apply parse_init; auto; try discriminate.
    - cbn [stack p0 q0]. rewrite S0. reflexivity.
    - right. cbn [stack p0]. rewrite S0. repeat constructor. }
  destruct (yparse E G pick cf n p0 s2 (c :: d)) as [[[e1 p1] s3]| | |], (yparse E G pick cf n q0 s2 (c :: d)) as [[[e2 p2] s4]| | |];
    cbn [rel] in H; try contradiction; cbn [bind load_outcome]; try congruence.
  destruct H as (H1 & H2 & H3). cbn [fst snd] in H1, H2, H3. subst. reflexivity.
Qed.
Print Assumptions C46_load.
(** A parser that failed inside a list of mappings goes back with its flag and indentation set. *)
Definition used_parser : yp :=
  match NewValueFromYaml y0 gr nopool 9 9 fresh_parser st0 (lines ["- a: x"; "  b: y"; "- c: z"]%string) true with
  | Ok (_, _, p, _) => p | _ => fresh_parser end.
Example C46_case : pooled used_parser /\ used_parser <> fresh_parser /\ first_el used_parser = true.
Proof.
  split; [|split; vm_compute; [discriminate|reflexivity]].
  destruct (ok_ex (fun r => snd (fst r)) (NewValueFromYaml y0 gr nopool 9 9 fresh_parser st0 (lines ["- a: x"; "  b: y"; "- c: z"]%string) true) used_parser)
    as ([[[e r] p] s] & Q1 & Q2).
  - vm_compute. reflexivity.
  - cbn [fst snd] in Q2. subst p. exact (pooled_value _ _ _ _ _ _ _ _ _ _ _ _ _ pooled_new Q1).
Qed.

(** ** C47 *)
(** Lines [key: value] at one indentation, with or without a final newline: the object with these
    keys in this order and the scalars the values denote.  *)
Theorem C47_new : forall E G pick cf n p s ind kvs nl use, env_ok E -> wf s -> pooled p -> kvs <> [] ->
  Forall (fun kv => plain_key (fst kv) /\ plain_value (snd kv)) kvs -> distinct_keys (key_match E) kvs ->
  (List.length kvs < n)%nat ->
  exists r p' s' u vs,
    NewValueFromYaml E G pick cf n p s (doc (map (flat_line ind) kvs ++ if nl : bool then [[]] else @nil bytes)) use = Ok (None, Some r, p', s') /\
    wf s' /\ live s' r /\ rep (hp s') (Some r) (VObject u vs) /\
    unescape_keys E u vs = map (fun kv => (fst kv, scalar E (snd kv))) kvs.
Proof.
  intros E G pick cf n p s ind kvs nl use EO W P NE F D LE.
  exact (flat_new E G pick cf EO n p s ind kvs nl use W (proj1 (proj2 (proj2 (pooled_empty p P)))) NE F D LE).
Qed.
Print Assumptions C47_new.
(** The same into an existing value, for lines that are not indented. *)
Theorem C47_load : forall E G pick cf n p s s1 l kvs nl, env_ok E -> wf s -> pooled p -> Clear s l = Ok s1 -> live s1 l -> (5 <= l)%nat ->
  kvs <> [] -> Forall (fun kv => plain_key (fst kv) /\ plain_value (snd kv)) kvs ->
  (forall kv, hd_error kvs = Some kv -> hd 0 (fst kv) <> 9) -> distinct_keys (key_match E) kvs -> (List.length kvs < n)%nat ->
  exists p' s' u vs,
    LoadFromYaml E G pick cf n p s l (doc (map (flat_line 0) kvs ++ if nl : bool then [[]] else @nil bytes)) = Ok (None, p', s') /\
    wf s' /\ live s' l /\ rep (hp s') (Some l) (VObject u vs) /\
    unescape_keys E u vs = map (fun kv => (fst kv, scalar E (snd kv))) kvs.
Proof.
  intros E G pick cf n p s s1 l kvs nl EO W P CL L L5 NE F H9 D LE.
  exact (flat_load E G pick cf EO n p s s1 l kvs nl W CL L L5 (proj1 (proj2 (proj2 (pooled_empty p P)))) NE F H9 D LE).
Qed.
Print Assumptions C47_load.
Definition flat_case : list (bytes * bytes) := [(bs "name", bs "x y"); (bs "on", bs "true"); (bs "off", bs "false")].
Example C47_case : flat_case <> [] /\ Forall (fun kv => plain_key (fst kv) /\ plain_value (snd kv)) flat_case /\
  distinct_keys (key_match y0) flat_case /\
  map (fun kv => (fst kv, scalar y0 (snd kv))) flat_case = [(bs "name", VString (bs "x y")); (bs "on", VTrue); (bs "off", VFalse)] /\
  doc (map (flat_line 2) flat_case) = lines ["  name: x y"; "  on: true"; "  off: false"]%string.
Proof.
  assert (NC : forall b, forallb (fun c => negb (c =? 35)) b = true -> no_comment b).
  { intros b H x y Q. rewrite forallb_forall in H. assert (I : In 35 b) by (rewrite Q; apply in_or_app; right; right; left; auto).
    specialize (H 35 I). discriminate. }
  split; [discriminate|]. split; [|split; [|split; vm_compute; reflexivity]].
  - repeat constructor; try (apply NC; reflexivity); cbv; intuition discriminate.
  - repeat constructor; vm_compute; reflexivity.
Qed.
Example C47_load_case : exists s1, wf (st_of y0 gr obj1) /\ Clear (st_of y0 gr obj1) 5 = Ok s1 /\ live s1 5.
Proof.
  destruct (ok_ex (fun s => live_b s 5) (Clear (st_of y0 gr obj1) 5) true) as (s1 & Q1 & Q2); [vm_compute; reflexivity|].
  exists s1. split; [apply st_of_wf; vm_compute; reflexivity|]. split; [exact Q1|apply live_of; exact Q2].
Qed.

(** ** C57 *)
(** A boolean from an anchor is shared with every mapping that merges the anchor: overriding it there
    changes the anchor.  Here [base.on] ends up false. *)
Definition shared_doc : bytes := lines ["base: &b"; "  on: true"; "other:"; "  <<: *b"; "  on: false"; ""]%string.
Theorem C57_refuted : exists r p' s' u u1 u2,
  NewValueFromYaml y0 gr nopool 9 9 fresh_parser st0 shared_doc true = Ok (None, Some r, p', s') /\
  rep (hp s') (Some r) (VObject u [(bs "base", VObject u1 [(bs "on", VFalse)]); (bs "other", VObject u2 [(bs "on", VFalse)])]).
Proof.
  destruct (ok_ex (fun r => (fst (fst (fst r)), snd (fst (fst r)), view 4 (hp (snd r)) (snd (fst (fst r)))))
     (NewValueFromYaml y0 gr nopool 9 9 fresh_parser st0 shared_doc true)
     (None, Some 5%nat, Some (VObject true [(bs "base", VObject true [(bs "on", VFalse)]); (bs "other", VObject true [(bs "on", VFalse)])])))
    as ([[[e r] p] s] & Q1 & Q2); [vm_compute; reflexivity|].
  cbn [fst snd] in Q2. apply pair_equal_spec in Q2 as [Q2 V]. apply pair_equal_spec in Q2 as [-> ->]. exists 5%nat, p, s, true, true, true. split; [exact Q1|]. exact (view_rep _ _ _ _ V).
Qed.
Print Assumptions C57_refuted.
(** The same document without the override keeps it true. *)
Theorem C57_control : exists r p' s' u u1 u2,
  NewValueFromYaml y0 gr nopool 9 9 fresh_parser st0 (lines ["base: &b"; "  on: true"; "other:"; "  <<: *b"; ""]%string) true = Ok (None, Some r, p', s') /\
  rep (hp s') (Some r) (VObject u [(bs "base", VObject u1 [(bs "on", VTrue)]); (bs "other", VObject u2 [(bs "on", VTrue)])]).
Proof.
  destruct (ok_ex (fun r => (fst (fst (fst r)), snd (fst (fst r)), view 4 (hp (snd r)) (snd (fst (fst r)))))
     (NewValueFromYaml y0 gr nopool 9 9 fresh_parser st0 (lines ["base: &b"; "  on: true"; "other:"; "  <<: *b"; ""]%string) true)
     (None, Some 5%nat, Some (VObject true [(bs "base", VObject true [(bs "on", VTrue)]); (bs "other", VObject true [(bs "on", VTrue)])])))
    as ([[[e r] p] s] & Q1 & Q2); [vm_compute; reflexivity|].
  cbn [fst snd] in Q2. apply pair_equal_spec in Q2 as [Q2 V]. apply pair_equal_spec in Q2 as [-> ->]. exists 5%nat, p, s, true, true, true. split; [exact Q1|]. exact (view_rep _ _ _ _ V).
Qed.
Print Assumptions C57_control.
(** The cause, on any heap: [clone] gives back a boolean itself, so setting the copy sets the original. *)
Theorem C57_cause : forall G f s l c b, (5 <= l)%nat -> (c_dt (hp s l) = TTrue \/ c_dt (hp s l) = TFalse) ->
  clone G (S f) s (Some l) c = Ok (l, s) /\ rep (hp (SetBool s l b)) (Some l) (if b then VTrue else VFalse).
Proof.
  intros G f s l c b L T. split.
  - cbn [clone]. destruct T as [T|T]; rewrite T; reflexivity.
  - unfold SetBool, Reset. rewrite (proj2 (ReadOnly_ge l) L). destruct b; constructor; cbn [hp set_cell]; rewrite upd_same; apply dt_reset.
Qed.
Print Assumptions C57_cause.

(** ** C58 *)
(** [LoadFromYaml] drops the indentation of the first line only, so an indented flat mapping nests
    there but not with [NewValueFromYaml]. *)
Definition indented_doc : bytes := lines ["  a: 1"; "  b: 2"]%string.
Theorem C58_refuted :
  (exists r p' s' u, NewValueFromYaml y0 gr nopool 9 9 fresh_parser st0 indented_doc true = Ok (None, Some r, p', s') /\
     rep (hp s') (Some r) (VObject u [(bs "a", VDouble 1); (bs "b", VDouble 2)])) /\
  (let s := snd (NewCacheValue gr st0 None TObject) in let l := fst (NewCacheValue gr st0 None TObject) in
   exists p' s' u u', LoadFromYaml y0 gr nopool 9 9 fresh_parser s l indented_doc = Ok (None, p', s') /\
     rep (hp s') (Some l) (VObject u [(bs "a", VObject u' [(bs "b", VDouble 2)])])).
Proof.
  split.
  - destruct (ok_ex (fun r => (fst (fst (fst r)), snd (fst (fst r)), view 4 (hp (snd r)) (snd (fst (fst r)))))
       (NewValueFromYaml y0 gr nopool 9 9 fresh_parser st0 indented_doc true)
       (None, Some 5%nat, Some (VObject true [(bs "a", VDouble 1); (bs "b", VDouble 2)])))
      as ([[[e r] p] s] & Q1 & Q2); [vm_compute; reflexivity|].
    cbn [fst snd] in Q2. apply pair_equal_spec in Q2 as [Q2 V]. apply pair_equal_spec in Q2 as [-> ->]. exists 5%nat, p, s, true. split; [exact Q1|]. exact (view_rep _ _ _ _ V).
  - intros s0 l. destruct (ok_ex (fun r => (fst (fst r), view 4 (hp (snd r)) (Some l)))
       (LoadFromYaml y0 gr nopool 9 9 fresh_parser s0 l indented_doc)
       (None, Some (VObject true [(bs "a", VObject true [(bs "b", VDouble 2)])])))
      as ([[e p] s] & Q1 & Q2); [vm_compute; reflexivity|].
    cbn [fst snd] in Q2. apply pair_equal_spec in Q2 as [-> V]. exists p, s, true, true. split; [exact Q1|]. exact (view_rep _ _ _ _ V).
Qed.
Print Assumptions C58_refuted.
(** White space before the document makes no difference to [LoadFromYaml], whatever the document. *)
Theorem C58_leading : forall E G pick cf n p s l w b, Forall (fun c => In c [32; 13; 10; 9]) w ->
  LoadFromYaml E G pick cf n p s l (w ++ b) = LoadFromYaml E G pick cf n p s l b.
Proof.
  intros E G pick cf n p s l w b F.
  assert (H : drop_ws (w ++ b) = drop_ws b).
  { induction F as [|c w I F IH]; [reflexivity|]. cbn [app drop_ws]. rewrite IH. cbn [In] in I.
    destruct I as [<-|[<-|[<-|[<-|[]]]]]; reflexivity. }
  unfold LoadFromYaml. rewrite H. reflexivity.
Qed.
Print Assumptions C58_leading.
Example C58_leading_case : Forall (fun c => In c [32; 13; 10; 9]) [9; 13; 10; 32; 9].
Proof. repeat (constructor; [cbn [In]; tauto|]). constructor. Qed.

(** ** C60 *)
(** Parsing touches nothing of any other structure: whatever is set apart from the receiver and the
    pooled parser keeps every cell and every cache. *)
Theorem C60_confined : forall P PC E G pick cf n p s b use e r p' s', inv P PC s -> pooled p ->
  NewValueFromYaml E G pick cf n p s b use = Ok (e, r, p', s') ->
  inv P PC s' /\ (forall l, P l -> hp s' l = hp s l) /\ (forall k, PC k -> cs s' k = cs s k) /\ (forall l, r = Some l -> ~ P l).
Proof.
  intros P PC E G pick cf n p s b use e r p' s' I PL H. destruct (pooled_empty p PL) as (R & C & S0 & U).
  assert (O : okp P PC s p).
  { constructor; [rewrite R; intros ? Q; discriminate|rewrite C; intros ? Q; discriminate|rewrite S0; constructor|rewrite U; constructor]. }
  destruct (tr_New P PC E G pick cf n p s b use e r p' s' I O H) as ((I' & K1 & K2 & K3 & K4) & O' & RO).
  split; [exact I'|]. split; [exact K3|]. split; [exact K4|]. intros l Q. apply (RO l Q).
Qed.
Print Assumptions C60_confined.
Theorem C60_load_confined : forall P PC E G pick cf n p s l b e p' s', inv P PC s -> pooled p -> (l < nx s)%nat -> ~ P l ->
  LoadFromYaml E G pick cf n p s l b = Ok (e, p', s') ->
  inv P PC s' /\ (forall x, P x -> hp s' x = hp s x) /\ (forall k, PC k -> cs s' k = cs s k).
Proof.
  intros P PC E G pick cf n p s l b e p' s' I PL L NP H. destruct (pooled_empty p PL) as (R & C & S0 & U).
  assert (O : okp P PC s p).
  { constructor; [rewrite R; intros ? Q; discriminate|rewrite C; intros ? Q; discriminate|rewrite S0; constructor|rewrite U; constructor]. }
  destruct (tr_Load P PC E G pick cf n p s l b e p' s' I O (conj L NP) H) as ((I' & K1 & K2 & K3 & K4) & O').
  split; [exact I'|]. split; [exact K3|exact K4].
Qed.
Print Assumptions C60_load_confined.
(** A structure set apart, then a parse in the same program. *)
Example C60_case : inv all_nested none_set nested /\ pooled fresh_parser /\
  ok_map (fun r => snd (fst (fst r))) (NewValueFromYaml y0 gr nopool 9 9 fresh_parser nested (lines ["a: x"; ""]%string) true) <> Some None /\
  ok_map (fun r => fst (fst (fst r))) (NewValueFromYaml y0 gr nopool 9 9 fresh_parser nested (lines ["a: x"; ""]%string) true) = Some None.
Proof. split; [exact nested_apart|]. split; [constructor|]. split; vm_compute; [discriminate|reflexivity]. Qed.
