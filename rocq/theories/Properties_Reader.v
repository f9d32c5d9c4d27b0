(** Property C41: goroutines looking up names in one object. *)
From Coq Require Import String.
From Verif Require Import Base Values HeapModel Tactics Env0 ReaderModel ReaderThms.
Local Open Scope nat_scope.

(** Any number of goroutines, any names, any schedule: if the keys were unescaped before, or contain
    nothing to unescape, the object stays as it is and every finished call returned what a single
    lookup returns. *)
Theorem C41_readers : forall E o names sched, settled E o ->
  let s := srun E (start o names) sched in
  q_kvs (fst s) = q_kvs o /\ (q_unesc o = true -> fst s = o) /\
  forall t l, nth_error names t = Some l -> exists g past, nth_error (snd s) t = Some g /\
    l = past ++ g_todo g /\ Forall2 (answer E (q_kvs o)) past (g_out g).
Proof.
  intros E [u K] names sched ST s. destruct (srun_ok E K u ST names sched _ (start_sys_ok E K u names)) as [[O1 O2] R]. fold s in O1, O2, R.
  split; [exact O1|]. split.
  - cbn. intros ->. specialize (O2 eq_refl). destruct (fst s) as [u' K']. cbn in *. congruence.
  - intros t l N. specialize (R t). rewrite N in R. destruct (nth_error (snd s) t) as [g|]; [|contradiction].
    destruct R as (_ & past & P1 & P2). exists g, past. auto.
Qed.
Print Assumptions C41_readers.
(** [answer] determines the result. *)
Theorem C41_answer_unique : forall E l name p q, answer E l name p -> answer E l name q -> p = q.
Proof. exact answer_fun. Qed.
Print Assumptions C41_answer_unique.

(** No goroutine waits for another: [6n+7] own steps per call are enough, whatever the others do and whatever
    the keys are ([n] pairs in the object). *)
Theorem C41_wait_free : forall E o names sched t l, nth_error names t = Some l ->
  List.length l * (6 * List.length (q_kvs o) + 7) <= count_occ Nat.eq_dec sched t ->
  exists g, nth_error (snd (srun E (start o names) sched)) t = Some g /\ g_todo g = [].
Proof.
  intros E o names sched t l N C.
  assert (L : live_ok (List.length (q_kvs o)) (start o names)).
  { split; [reflexivity|]. cbn [start snd]. intros u g. rewrite nth_error_map. destruct (nth_error names u); [|discriminate].
    intros Q. injection Q as <-. intros _. exact I. }
  destruct (srun_live E (List.length (q_kvs o)) sched (start o names) t (mkReader l REnter []) L) as (g & G & W).
  - cbn [start snd]. rewrite nth_error_map, N. reflexivity.
  - exists g. split; [exact G|]. apply (work_done (List.length (q_kvs o))). unfold work at 2 in W. cbn [g_todo g_pc] in W.
    destruct l as [|x r]; cbn [List.length cost] in *; lia.
Qed.
Print Assumptions C41_wait_free.

(** One goroutine alone, on any object: a call ends, and returns the value of the first key that equals the
    name as stored, if the name has no backslash and the object is fresh, and else the value under the first key
    that equals the name once unescaped; only in the second case the keys are unescaped in place. *)
Theorem C41_alone : forall E o name, exists o' p n,
  srun E (start o [[name]]) (repeat 0 n) = (o', [mkReader [] REnter [p]]) /\
  ((q_unesc o = false /\ no_backslash name = true /\ Exists (fun x => key_match E (fst x) name = true) (q_kvs o) /\
      o' = o /\ answer E (q_kvs o) name p) \/
   ((q_unesc o = false -> no_backslash name = true -> Forall (fun x => key_match E (fst x) name = false) (q_kvs o)) /\
      o' = mkShared true (unescape_keys E (q_unesc o) (q_kvs o)) /\ answer E (q_kvs o') name p)).
Proof. intros E o name. destruct (alone E o name [] []) as (o' & p & [n Q] & A). exists o', p, n. split; [exact Q|exact A]. Qed.
Print Assumptions C41_alone.
(** A fresh object whose second key is written with an escape. *)
Example C41_alone_case : forall ic, let o := mkShared false [(bs "b", Some 8); (bs "a\/", Some 7)] in
  srun (env0 ic) (start o [[bs "a/"]]) (repeat 0 20) = (mkShared true [(bs "b", Some 8); (bs "a/", Some 7)], [mkReader [] REnter [Some 7]]) /\
  srun (env0 ic) (start o [[bs "b"]]) (repeat 0 20) = (o, [mkReader [] REnter [Some 8]]).
Proof. intros ic. destruct ic; vm_compute; split; reflexivity. Qed.

(** Two goroutines, three calls, an object with unescaped keys; one key looks like an escape. *)
Definition obj1 : shared := mkShared true [(bs "a", Some 7); (bs "\n", Some 8)].
Definition obj2 : shared := mkShared false [(bs "a", Some 7); (bs "b", Some 8)].
Definition names1 : list (list bytes) := [[bs "\n"; bs "x"]; [bs "A"]].
Definition sched1 : list nat := concat (repeat [0; 1; 0] 20).
Example C41_nonvacuous : forall ic, settled (env0 ic) obj1 /\ settled (env0 ic) obj2 /\
  map g_out (snd (srun (env0 ic) (start obj1 names1) sched1)) = [[Some 8; None]; [if ic then Some 7 else None]] /\
  map g_out (snd (srun (env0 ic) (start obj2 names1) sched1)) = [[None; None]; [if ic then Some 7 else None]] /\
  q_unesc (fst (srun (env0 ic) (start obj2 names1) sched1)) = true.
Proof.
  intros ic. split; [left; reflexivity|]. split; [right; repeat constructor|]. destruct ic; vm_compute; repeat split; reflexivity.
Qed.

(** A freshly parsed object with an escaped key: two goroutines looking up a name it does have both get nil,
    and the key is left unescaped twice ([k2]), so that later lookups fail as well.  Alone, the lookup succeeds.
    [env0] meets the hypotheses; so does the real unescaping, with a newline for [k2]. *)
Definition fresh1 : shared := mkShared false [(bs "\\n", Some 7)].
Definition race1 : list nat := [0; 0; 0; 1; 1; 0; 1; 1; 1; 1] ++ repeat 0 9 ++ repeat 1 9.
Lemma fold_cons {A B} (F : A -> B -> A) t r s s1 : F s t = s1 -> fold_left F (t :: r) s = fold_left F r s1.
Proof. intros <-. reflexivity. Qed.
Ltac one U1 U2 IC B NB :=
  match goal with |- context [fold_left ?F (?t :: ?r) ?s] =>
    let s1 := eval cbv - [x_unescape ignore_case x_fold beq] in (F s t) in
    let Q := fresh in assert (Q : F s t = s1) by (cbv - [x_unescape ignore_case x_fold beq]; reflexivity);
    rewrite ?U1, ?U2, ?IC, ?B, ?NB in Q; rewrite (fold_cons F t r s _ Q); clear Q end.
Theorem C41_fresh_refuted : forall E k2, ignore_case E = false ->
  x_unescape E (bs "\\n") = bs "\n" -> x_unescape E (bs "\n") = k2 -> k2 <> bs "\n" ->
  answer E [(x_unescape E (bs "\\n"), Some 7)] (bs "\n") (Some 7) /\
  map g_out (snd (srun E (start fresh1 [[bs "\n"]]) (repeat 0 13))) = [[Some 7]] /\
  exists sched, exists s, srun E (start fresh1 [[bs "\n"]; [bs "\n"]]) sched = s /\
    map g_todo (snd s) = [[]; []] /\ map g_out (snd s) = [[None]; [None]] /\ fst s = mkShared true [(k2, Some 7)].
Proof.
  intros E k2 IC U1 U2 NE.
  assert (NB : beq k2 (bs "\n") = false) by (destruct (beq k2 (bs "\n")) eqn:Q; [apply beq_eq in Q; contradiction|reflexivity]).
  assert (B : beq (bs "\n") (bs "\n") = true) by reflexivity. clear NE.
  change (bs "\\n") with [92%Z; 92%Z; 110%Z] in *. change (bs "\n") with [92%Z; 110%Z] in *.
  split; [|split].
  - left. exists [], [92%Z; 110%Z], []. rewrite U1. split; [reflexivity|]. split; [unfold key_match; rewrite IC; reflexivity|constructor].
  - unfold srun, start, fresh1. cbn [repeat map List.app fst snd]. do 13 (one U1 U2 IC B NB). reflexivity.
  - exists race1. eexists. split; [unfold srun, start, fresh1, race1; cbn [repeat map List.app fst snd]; do 28 (one U1 U2 IC B NB); reflexivity|].
    split; [reflexivity|]. split; reflexivity.
Qed.
Print Assumptions C41_fresh_refuted.
Example C41_fresh_nonvacuous : ignore_case (env0 false) = false /\ x_unescape (env0 false) (bs "\\n") = bs "\n" /\
  x_unescape (env0 false) (bs "\n") = bs "n" /\ bs "n" <> bs "\n".
Proof. do 3 (split; [reflexivity|]). discriminate. Qed.
