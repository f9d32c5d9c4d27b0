(** Readers of one object: results and progress under all schedules. *)
From Verif Require Import Base Values HeapModel ReaderModel.
Local Open Scope nat_scope.

(** ** Specification *)
(** What looking up [name] in pairs [l] yields: the value of the first pair with that key, else nil. *)
Definition answer (E : env) (l : list (bytes * ptr)) (name : bytes) (p : ptr) : Prop :=
  (exists a k b, l = a ++ (k, p) :: b /\ key_match E k name = true /\ Forall (fun x => key_match E (fst x) name = false) a) \/
  (p = None /\ Forall (fun x => key_match E (fst x) name = false) l).
(** Unescaping has been done, or has nothing to do. *)
Definition settled (E : env) (o : shared) : Prop :=
  q_unesc o = true \/ Forall (fun x => x_unescape E (fst x) = fst x) (q_kvs o).

Lemma answer_fun E l name p q : answer E l name p -> answer E l name q -> p = q.
Proof.
  intros A B.
  assert (NO : forall a k v b, l = a ++ (k, v) :: b -> key_match E k name = true ->
    ~ Forall (fun x => key_match E (fst x) name = false) l).
  { intros a k v b -> M F. rewrite Forall_forall in F. specialize (F (k, v) ltac:(apply in_elt)). cbn in F. congruence. }
  destruct A as [(a & k & b & L & M & F)|[-> F]], B as [(a' & k' & b' & L' & M' & F')|[-> F']].
  - rewrite L in L'. clear L NO. revert a' L' F'. induction a as [|x a IH]; intros [|x' a'] L' F'; cbn in L'.
    + congruence.
    + exfalso. injection L' as <- _. inversion F' as [|? ? Q _]. cbn in Q. congruence.
    + exfalso. injection L' as -> _. inversion F as [|? ? Q _]. cbn in Q. congruence.
    + injection L' as <- L'. inversion F. inversion F'. eapply IH; eauto.
  - exfalso. exact (NO a k p b L M F').
  - exfalso. exact (NO a' k' q b' L' M' F).
  - reflexivity.
Qed.

(** ** Lists *)
Lemma set_nth_len {A} t (x : A) l : length (set_nth t x l) = length l.
Proof. revert t; induction l as [|y l IH]; intros [|t]; cbn; auto. Qed.
Lemma nth_error_set {A} t u (x y : A) l : nth_error l t = Some y ->
  nth_error (set_nth t x l) u = if u =? t then Some x else nth_error l u.
Proof. revert t u; induction l as [|z l IH]; intros [|t] [|u] Q; cbn in *; try discriminate; auto. Qed.
Lemma set_key_len i k l : length (set_key i k l) = length l.
Proof. revert i; induction l as [|[y v] l IH]; intros [|i]; cbn; auto. Qed.
Lemma set_key_same i k v l : nth_error l i = Some (k, v) -> set_key i k l = l.
Proof. revert i; induction l as [|[y w] l IH]; intros [|i] Q; cbn in *; try discriminate; [congruence|]. rewrite IH by exact Q. reflexivity. Qed.

(** ** Results *)
Section RESULTS.
Variable E : env.
Variable K : list (bytes * ptr).
Variable u0 : bool.
Hypothesis ST : settled E (mkShared u0 K).

Definition before (name : bytes) (i : nat) : Prop := Forall (fun x => key_match E (fst x) name = false) (firstn i K).
Definition pc_ok (name : bytes) (p : rpc) : Prop :=
  match p with
  | REnter | RCheck => True
  | RFold _ i => before name i
  | REq _ i => before name i /\ exists k v, nth_error K i = Some (k, v) /\ ignore_case E && x_fold E k name = false
  | RGot i => before name i /\ exists k v, nth_error K i = Some (k, v) /\ key_match E k name = true
  | RRead _ | RFlag => u0 = false
  | RWrite i k => u0 = false /\ exists v, nth_error K i = Some (k, v)
  end.
Definition obj_ok (o : shared) : Prop := q_kvs o = K /\ (u0 = true -> q_unesc o = true).
Definition reader_ok (names : list bytes) (g : reader) : Prop :=
  match g_todo g with [] => True | name :: _ => pc_ok name (g_pc g) end /\
  exists past, names = past ++ g_todo g /\ Forall2 (answer E K) past (g_out g).

Lemma before_next name i k v : before name i -> nth_error K i = Some (k, v) -> key_match E k name = false -> before name (S i).
Proof.
  unfold before. intros F N M. assert (Q : firstn (S i) K = firstn i K ++ [(k, v)]).
  { clear -N. revert i N; generalize K as l. induction l as [|x l IH]; intros [|i] N; cbn in N; try discriminate.
    - injection N as ->. reflexivity.
    - cbn [firstn app]. rewrite <- IH by exact N. reflexivity. }
  rewrite Q. apply Forall_app. split; [exact F|]. constructor; [exact M|constructor].
Qed.
Lemma before_all name i : before name i -> nth_error K i = None -> Forall (fun x => key_match E (fst x) name = false) K.
Proof. unfold before. intros F N. apply nth_error_None in N. rewrite firstn_all2 in F by exact N. exact F. Qed.
Lemma before_hit name i k v : before name i -> nth_error K i = Some (k, v) -> key_match E k name = true -> answer E K name v.
Proof.
  intros F N M. left. exists (firstn i K), k, (skipn (S i) K). split; [|split; [exact M|exact F]].
  clear -N. revert i N; generalize K as l. induction l as [|x l IH]; intros [|i] N; cbn in N; try discriminate.
  - injection N as ->. reflexivity.
  - cbn [firstn app]. rewrite (IH i N) at 1. reflexivity.
Qed.
Lemma finish_ok names name g p : g_todo g = name :: tl (g_todo g) -> answer E K name p ->
  (exists past, names = past ++ g_todo g /\ Forall2 (answer E K) past (g_out g)) -> reader_ok names (finish g p).
Proof.
  intros T A (past & N & F). unfold reader_ok, finish. cbn [g_todo g_pc g_out]. split; [destruct (tl (g_todo g)); exact I|].
  exists (past ++ [name]). split; [rewrite <- app_assoc; cbn; rewrite <- T; exact N|].
  apply Forall2_app; [exact F|]. constructor; [exact A|constructor].
Qed.
Lemma rstep_ok o g names : obj_ok o -> reader_ok names g ->
  obj_ok (fst (rstep E o g)) /\ reader_ok names (snd (rstep E o g)).
Proof.
  intros O (P & H). unfold rstep. destruct (g_todo g) as [|name rest] eqn:T; [split; [exact O|]; cbn [snd]; split; [rewrite T; exact I|rewrite T; exact H]|].
  assert (GO : forall p, pc_ok name p -> reader_ok names (at_pc g p)).
  { intros p Q. split; cbn [at_pc g_todo g_pc g_out]; rewrite T; [exact Q|exact H]. }
  assert (T1 : g_todo g = name :: tl (g_todo g)) by (rewrite T; reflexivity).
  rewrite <- T in H. destruct O as [OK OU].
  assert (OO : obj_ok o) by (split; assumption).
  destruct (g_pc g) as [|sec i|sec i|i| |i|i k|] eqn:PC; rewrite ?OK; cbn [pc_ok] in P.
  - destruct (negb (q_unesc o) && no_backslash name); (split; [exact OO|]); apply GO; [constructor|exact I].
  - destruct (nth_error K i) as [[k v]|] eqn:N; [split; [exact OO|]|].
    + destruct (ignore_case E && x_fold E k name) eqn:F; apply GO; cbn [pc_ok].
      * split; [exact P|]. exists k, v. split; [exact N|]. unfold key_match. rewrite F. reflexivity.
      * split; [exact P|]. exists k, v. auto.
    + destruct sec; (split; [exact OO|]); [|apply GO; exact I].
      apply (finish_ok names name); auto. right. split; [reflexivity|]. exact (before_all _ _ P N).
  - destruct P as (B & k & v & N & F). rewrite N. split; [exact OO|]. apply GO. destruct (beq k name) eqn:Q; cbn [pc_ok].
    + split; [exact B|]. exists k, v. split; [exact N|]. unfold key_match. rewrite F, Q. reflexivity.
    + apply (before_next name i k v B N). unfold key_match. rewrite F, Q. reflexivity.
  - destruct P as (B & k & v & N & M). rewrite N. split; [exact OO|]. apply (finish_ok names name); auto. exact (before_hit _ _ _ _ B N M).
  - destruct (q_unesc o) eqn:U; (split; [exact OO|]); apply GO; cbn [pc_ok]; [constructor|].
    destruct u0; [specialize (OU eq_refl); congruence|reflexivity].
  - destruct (nth_error K i) as [[k v]|] eqn:N; (split; [exact OO|]); apply GO; cbn [pc_ok]; [|exact P].
    split; [exact P|]. exists v. destruct ST as [S1|S1]; [cbn in S1; congruence|]. cbn in S1. rewrite Forall_forall in S1.
    rewrite (S1 (k, v) (nth_error_In _ _ N) : x_unescape E k = k). exact N.
  - destruct P as [U (v & N)]. cbn [fst snd]. split; [|apply GO; exact U].
    split; cbn [q_kvs q_unesc]; [apply (set_key_same i k v); exact N|exact OU].
  - cbn [fst snd]. split; [split; reflexivity|]. apply GO. constructor.
Qed.
Definition sys_ok (names : list (list bytes)) (s : sys) : Prop :=
  obj_ok (fst s) /\ forall t, match nth_error (snd s) t, nth_error names t with
    | Some g, Some l => reader_ok l g | None, None => True | _, _ => False end.
Lemma sstep_ok names s t : sys_ok names s -> sys_ok names (sstep E s t).
Proof.
  intros [O R]. unfold sstep. destruct (nth_error (snd s) t) as [g|] eqn:G; [|split; assumption].
  pose proof (R t) as Q. rewrite G in Q. destruct (nth_error names t) as [l|] eqn:L; [|contradiction].
  destruct (rstep_ok (fst s) g l O Q) as [O' Q']. destruct (rstep E (fst s) g) as [o' g']. cbn [fst snd] in *.
  split; [exact O'|]. intros u. cbn [snd]. rewrite (nth_error_set t u g' g _ G).
  destruct (Nat.eqb_spec u t) as [E1|E1]; [subst u; rewrite L; exact Q'|exact (R u)].
Qed.
Lemma srun_ok names sched : forall s, sys_ok names s -> sys_ok names (srun E s sched).
Proof. induction sched as [|t r IH]; intros s H; [exact H|]. cbn. apply IH, sstep_ok, H. Qed.
Lemma start_sys_ok names : sys_ok names (start (mkShared u0 K) names).
Proof.
  split; [split; auto|]. intros t. cbn [start snd]. rewrite nth_error_map. destruct (nth_error names t) as [l|]; cbn [option_map]; [|exact I].
  split; [cbn; destruct l; exact I|]. exists []. split; [reflexivity|constructor].
Qed.
End RESULTS.

(** ** Progress *)
Section PROGRESS.
Variable E : env.
Variable n : nat.                        (* number of pairs *)
Definition in_range (p : rpc) : Prop := match p with REq _ i | RGot i | RWrite i _ => i < n | _ => True end.
Definition cost (p : rpc) : nat :=
  match p with
  | REnter => 6 * n + 7
  | RFold false i => 4 * n + 6 + 2 * (n - i)
  | REq false i => 4 * n + 5 + 2 * (n - i)
  | RCheck => 4 * n + 5
  | RRead i => 2 * n + 4 + 2 * (n - i)
  | RWrite i _ => 2 * n + 3 + 2 * (n - i)
  | RFlag => 2 * n + 3
  | RFold true i => 2 * (n - i) + 2
  | REq true i => 2 * (n - i) + 1
  | RGot _ => 1
  end.
Definition work (g : reader) : nat :=
  match g_todo g with [] => 0 | _ :: r => cost (g_pc g) + length r * (6 * n + 7) end.
Definition range_ok (g : reader) : Prop := g_todo g <> [] -> in_range (g_pc g).
Lemma rstep_work o g : length (q_kvs o) = n -> range_ok g ->
  length (q_kvs (fst (rstep E o g))) = n /\ range_ok (snd (rstep E o g)) /\
  work (snd (rstep E o g)) <= work g - 1.
Proof.
  intros L R. unfold rstep, work. destruct (g_todo g) as [|name rest] eqn:T; [split; [exact L|]; split; [exact R|]; cbn [snd]; rewrite T; lia|].
  assert (IR : in_range (g_pc g)) by (apply R; congruence).
  assert (GO : forall p, in_range p -> cost p < cost (g_pc g) ->
    length (q_kvs o) = n /\ range_ok (at_pc g p) /\ (match g_todo (at_pc g p) with
      [] => 0 | _ :: r => cost (g_pc (at_pc g p)) + length r * (6 * n + 7) end <= cost (g_pc g) + length rest * (6 * n + 7) - 1)).
  { intros p Q C. split; [exact L|]. split; [intros _; exact Q|]. cbn [at_pc g_todo g_pc]. rewrite T. lia. }
  assert (FIN : forall p, 0 < cost (g_pc g) ->
    length (q_kvs o) = n /\ range_ok (finish g p) /\ (match g_todo (finish g p) with
      [] => 0 | _ :: r => cost (g_pc (finish g p)) + length r * (6 * n + 7) end <= cost (g_pc g) + length rest * (6 * n + 7) - 1)).
  { intros p C. split; [exact L|]. split; [intros _; exact I|]. cbn [finish g_todo g_pc]. rewrite T. cbn [tl].
    destruct rest as [|x r]; cbn [length cost]; lia. }
  destruct (g_pc g) as [|sec i|sec i|i| |i|i k|] eqn:PC; cbn [in_range] in IR.
  - destruct (negb (q_unesc o) && no_backslash name); apply GO; cbn; auto; lia.
  - destruct (nth_error (q_kvs o) i) as [[k v]|] eqn:N.
    + assert (i < n) by (rewrite <- L; apply nth_error_Some; congruence).
      destruct (ignore_case E && x_fold E k name); apply GO; cbn; auto; destruct sec; lia.
    + destruct sec; [apply FIN|apply GO]; cbn; auto; lia.
  - destruct (nth_error (q_kvs o) i) as [[k v]|] eqn:N; [|apply nth_error_None in N; lia].
    destruct (beq k name); apply GO; cbn; auto; destruct sec; lia.
  - destruct (nth_error (q_kvs o) i) as [[k v]|] eqn:N; [|apply nth_error_None in N; lia]. apply FIN. cbn. lia.
  - destruct (q_unesc o); apply GO; cbn; auto; lia.
  - destruct (nth_error (q_kvs o) i) as [[k v]|] eqn:N.
    + assert (i < n) by (rewrite <- L; apply nth_error_Some; congruence). apply GO; cbn; auto; lia.
    + apply GO; cbn; auto; lia.
  - cbn [fst snd]. destruct (GO (RRead (S i))) as (_ & G2 & G3); [exact I|cbn; lia|].
    split; [cbn; rewrite set_key_len; exact L|]. split; [exact G2|exact G3].
  - cbn [fst snd]. destruct (GO (RFold true 0)) as (_ & G2 & G3); [exact I|cbn; lia|]. split; [exact L|]. split; [exact G2|exact G3].
Qed.
Definition live_ok (s : sys) : Prop := length (q_kvs (fst s)) = n /\ forall t g, nth_error (snd s) t = Some g -> range_ok g.
Lemma sstep_live s t : live_ok s -> live_ok (sstep E s t) /\
  forall u g, nth_error (snd s) u = Some g -> exists g', nth_error (snd (sstep E s t)) u = Some g' /\
    work g' <= work g - (if u =? t then 1 else 0).
Proof.
  intros [L R]. unfold sstep. destruct (nth_error (snd s) t) as [g|] eqn:G.
  - destruct (rstep_work (fst s) g L (R t g G)) as (L' & R' & W). destruct (rstep E (fst s) g) as [o' g']. cbn [fst snd] in *. split.
    + split; [exact L'|]. intros u x. cbn [snd]. rewrite (nth_error_set t u g' g _ G). destruct (Nat.eqb_spec u t); [intros Q; injection Q as <-; exact R'|apply R].
    + intros u x X. rewrite (nth_error_set t u g' g _ G). destruct (Nat.eqb_spec u t) as [E1|E1].
      * subst u. rewrite G in X. injection X as <-. exists g'. split; [reflexivity|].
        exact W.
      * exists x. split; [exact X|lia].
  - split; [split; assumption|]. intros u x X. exists x. split; [exact X|]. destruct (Nat.eqb_spec u t) as [E1|E1]; [congruence|lia].
Qed.
Lemma srun_live sched : forall s t g, live_ok s -> nth_error (snd s) t = Some g ->
  exists g', nth_error (snd (srun E s sched)) t = Some g' /\ work g' <= work g - count_occ Nat.eq_dec sched t.
Proof.
  induction sched as [|u r IH]; intros s t g L G; [exists g; split; [exact G|cbn; lia]|].
  destruct (sstep_live s u L) as [L' W]. destruct (W t g G) as (g1 & G1 & W1). destruct (IH _ t g1 L' G1) as (g2 & G2 & W2).
  exists g2. split; [exact G2|]. cbn [count_occ]. destruct (Nat.eq_dec u t) as [E1|E1], (Nat.eqb_spec t u) as [E2|E2]; try congruence; lia.
Qed.
Lemma work_done g : work g = 0 -> g_todo g = [].
Proof. unfold work. destruct (g_todo g) as [|y r]; [reflexivity|]. destruct (g_pc g) as [|[] |[] | | | | |]; cbn; lia. Qed.
End PROGRESS.

(** ** A goroutine on its own *)
Section ALONE.
Variable E : env.
Definition goes (o : shared) (g : reader) (o' : shared) (g' : reader) : Prop :=
  exists n, srun E (o, [g]) (repeat O n) = (o', [g']).
Lemma goes_refl o g : goes o g o g.
Proof. exists O. reflexivity. Qed.
Lemma goes_step o g o1 g1 o' g' : rstep E o g = (o1, g1) -> goes o1 g1 o' g' -> goes o g o' g'.
Proof. intros R [n Q]. exists (S n). cbn [repeat]. unfold srun in *. cbn [fold_left]. unfold sstep at 2. cbn [nth_error fst snd]. rewrite R. exact Q. Qed.
Lemma goes_trans o g o1 g1 o' g' : goes o g o1 g1 -> goes o1 g1 o' g' -> goes o g o' g'.
Proof. intros [n Q] [n' Q']. exists (n + n'). rewrite repeat_app. unfold srun in *. rewrite fold_left_app, Q. exact Q'. Qed.

(** Looking through the keys. *)
Lemma scan name todo out second o rest : forall done, q_kvs o = done ++ rest -> Forall (fun x => key_match E (fst x) name = false) done ->
  (exists a k p b, q_kvs o = a ++ (k, p) :: b /\ key_match E k name = true /\ Forall (fun x => key_match E (fst x) name = false) a /\
     goes o (mkReader (name :: todo) (RFold second (length done)) out) o (mkReader todo REnter (out ++ [p]))) \/
  (Forall (fun x => key_match E (fst x) name = false) (q_kvs o) /\
     goes o (mkReader (name :: todo) (RFold second (length done)) out) o
       (if second then mkReader todo REnter (out ++ [None]) else mkReader (name :: todo) RCheck out)).
Proof.
  induction rest as [|[k p] rest IH]; intros done Q F.
  - right. rewrite app_nil_r in Q. split; [rewrite Q; exact F|]. eapply goes_step; [|apply goes_refl]. cbn.
    rewrite (proj2 (nth_error_None (q_kvs o) (length done))) by (rewrite Q; lia). destruct second; reflexivity.
  - assert (N : nth_error (q_kvs o) (length done) = Some (k, p)) by (rewrite Q, nth_error_app2, Nat.sub_diag by lia; reflexivity).
    destruct (key_match E k name) eqn:M.
    + left. exists done, k, p, rest. split; [exact Q|]. split; [exact M|]. split; [exact F|]. unfold key_match in M.
      assert (LAST : goes o (mkReader (name :: todo) (RGot (length done)) out) o (mkReader todo REnter (out ++ [p]))).
      { eapply goes_step; [|apply goes_refl]. cbn. rewrite N. reflexivity. }
      destruct (ignore_case E && x_fold E k name) eqn:IC.
      * eapply goes_step; [cbn; rewrite N, IC; reflexivity|]. exact LAST.
      * eapply goes_step; [cbn; rewrite N, IC; reflexivity|]. eapply goes_step; [cbn; rewrite N; reflexivity|].
        cbn [at_pc g_todo g_out]. replace (beq k name) with true by (destruct (beq k name); [reflexivity|discriminate M]). exact LAST.
    + destruct (IH (done ++ [(k, p)])) as [(a & k' & p' & b & A)|[A B]].
      * rewrite <- app_assoc. exact Q.
      * apply Forall_app. split; [exact F|]. constructor; [exact M|constructor].
      * left. exists a, k', p', b. destruct A as (A1 & A2 & A3 & A4). split; [exact A1|]. split; [exact A2|]. split; [exact A3|].
        unfold key_match in M. destruct (ignore_case E && x_fold E k name) eqn:IC; [discriminate M|]. cbn [orb] in M.
        eapply goes_step; [cbn; rewrite N, IC; reflexivity|]. eapply goes_step; [cbn; rewrite N, M; reflexivity|].
        rewrite app_length, Nat.add_1_r in A4. exact A4.
      * right. split; [exact A|].
        unfold key_match in M. destruct (ignore_case E && x_fold E k name) eqn:IC; [discriminate M|]. cbn [orb] in M.
        eapply goes_step; [cbn; rewrite N, IC; reflexivity|]. eapply goes_step; [cbn; rewrite N, M; reflexivity|].
        rewrite app_length, Nat.add_1_r in B. exact B.
Qed.
Lemma scan_all name todo out o : exists p, answer E (q_kvs o) name p /\
  goes o (mkReader (name :: todo) (RFold true 0) out) o (mkReader todo REnter (out ++ [p])).
Proof.
  destruct (scan name todo out true o (q_kvs o) [] eq_refl (Forall_nil _)) as [(a & k & p & b & A1 & A2 & A3 & A4)|[A B]].
  - exists p. split; [|exact A4]. left. exists a, k, b. auto.
  - exists None. split; [|exact B]. right. auto.
Qed.

(** Unescaping the keys. *)
Lemma unescapes name todo out u rest : forall done,
  goes (mkShared u (done ++ rest)) (mkReader (name :: todo) (RRead (length done)) out)
       (mkShared u (done ++ unescape_keys E false rest)) (mkReader (name :: todo) RFlag out).
Proof.
  induction rest as [|[k p] rest IH]; intros done.
  - eapply goes_step; [|apply goes_refl]. cbn. rewrite (proj2 (nth_error_None (done ++ []) (length done))) by (rewrite app_nil_r; lia). reflexivity.
  - assert (N : nth_error (done ++ (k, p) :: rest) (length done) = Some (k, p)) by (rewrite nth_error_app2, Nat.sub_diag by lia; reflexivity).
    eapply goes_step; [cbn; rewrite N; reflexivity|]. eapply goes_step; [cbn; reflexivity|].
    assert (SK : set_key (length done) (x_unescape E k) (done ++ (k, p) :: rest) = (done ++ [(x_unescape E k, p)]) ++ rest).
    { clear. induction done as [|[x v] done IH]; cbn; [reflexivity|]. rewrite IH. reflexivity. }
    rewrite SK. specialize (IH (done ++ [(x_unescape E k, p)])). rewrite app_length, Nat.add_1_r in IH.
    rewrite <- (app_assoc done [(x_unescape E k, p)] (unescape_keys E false rest)) in IH. exact IH.
Qed.

Theorem alone o name todo out : exists o' p,
  goes o (mkReader (name :: todo) REnter out) o' (mkReader todo REnter (out ++ [p])) /\
  ((q_unesc o = false /\ no_backslash name = true /\ Exists (fun x => key_match E (fst x) name = true) (q_kvs o) /\
      o' = o /\ answer E (q_kvs o) name p) \/
   ((q_unesc o = false -> no_backslash name = true -> Forall (fun x => key_match E (fst x) name = false) (q_kvs o)) /\
      o' = mkShared true (unescape_keys E (q_unesc o) (q_kvs o)) /\ answer E (q_kvs o') name p)).
Proof.
  assert (SLOW : exists p, answer E (unescape_keys E (q_unesc o) (q_kvs o)) name p /\
    goes o (mkReader (name :: todo) RCheck out) (mkShared true (unescape_keys E (q_unesc o) (q_kvs o))) (mkReader todo REnter (out ++ [p]))).
  { destruct (scan_all name todo out (mkShared true (unescape_keys E (q_unesc o) (q_kvs o)))) as (p & A & B). exists p. split; [exact A|].
    destruct o as [[|] K]; cbn [q_unesc q_kvs] in *.
    - eapply goes_step; [cbn; reflexivity|]. exact B.
    - eapply goes_step; [cbn; reflexivity|]. eapply goes_trans; [exact (unescapes name todo out false K [])|].
      eapply goes_step; [cbn; reflexivity|]. exact B. }
  destruct SLOW as (p & A & B). destruct (negb (q_unesc o) && no_backslash name) eqn:FA.
  - destruct (scan name todo out false o (q_kvs o) [] eq_refl (Forall_nil _)) as [(a & k & q & b & A1 & A2 & A3 & A4)|[A' B']].
    + exists o, q. split; [eapply goes_step; [cbn; rewrite FA; reflexivity|exact A4]|]. left. apply andb_true_iff in FA as [F1 F2].
      split; [destruct (q_unesc o); [discriminate|reflexivity]|]. split; [exact F2|]. split; [rewrite A1; apply Exists_app; right; constructor; exact A2|].
      split; [reflexivity|]. left. exists a, k, b. auto.
    + eexists _, p. split; [eapply goes_step; [cbn; rewrite FA; reflexivity|]; eapply goes_trans; [exact B'|exact B]|]. right. auto.
  - eexists _, p. split; [eapply goes_step; [cbn; rewrite FA; reflexivity|exact B]|]. right. split; [|auto]. intros U NB. rewrite U, NB in FA. discriminate.
Qed.
End ALONE.
