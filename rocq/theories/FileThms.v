(** The read loop returns the content. *)
From Verif Require Import Base Values Tactics HeapModel JsonModel FileModel.
Local Open Scope nat_scope.

Lemma min_le_l a b c : a <= Nat.min b c -> a <= c.
Proof. lia. Qed.
Lemma firstn_more {A} off m (l : list A) : off <= length l ->
  firstn (off + length (firstn m (skipn off l))) l = firstn off l ++ firstn m (skipn off l).
Proof.
  revert l; induction off as [|n IH]; intros l L; cbn [skipn firstn Nat.add app].
  - rewrite firstn_length. destruct (Nat.le_gt_cases m (length l)) as [H|H].
    + rewrite Nat.min_l by exact H. reflexivity.
    + rewrite Nat.min_r by lia. rewrite firstn_all, firstn_all2 by lia. reflexivity.
  - destruct l as [|x l]; cbn [length] in L; [lia|]. cbn [skipn firstn app]. f_equal. apply IH. lia.
Qed.
Lemma f_read_spec d k off room b e : off <= length (d_content d) -> f_read d k off room = (b, e) ->
  length b <= room /\ firstn (off + length b) (d_content d) = firstn off (d_content d) ++ b /\
  off + length b <= length (d_content d) /\
  (e = Some EOF -> off + length b = length (d_content d)) /\
  (e = Some Failed -> d_fail d = Some k) /\
  (e = None -> 0 < room -> 0 < d_chunk d k -> 0 < length b).
Proof.
  intros O. unfold f_read. destruct (Nat.eqb_spec room 0) as [R|R].
  { intros Q; injection Q as <- <-. cbn [length]. rewrite Nat.add_0_r, app_nil_r. repeat split; try lia; discriminate. }
  destruct (d_fail d) as [j|] eqn:DF; [destruct (Nat.eqb_spec j k) as [J|J]|].
  { intros Q; injection Q as <- <-. cbn [length]. rewrite Nat.add_0_r, app_nil_r. subst j. repeat split; try lia; congruence. }
  all: destruct (skipn off (d_content d)) as [|x r] eqn:SK;
    pose proof (f_equal (@length _) SK) as LS; rewrite skipn_length in LS;
    [intros Q; injection Q as <- <-; cbn [length] in *; rewrite Nat.add_0_r, app_nil_r; repeat split; try lia; congruence|].
  all: remember (Nat.min (d_chunk d k) room) as mm; intros Q; rewrite <- SK in Q; injection Q as <- <-; clear SK.
  all: pose proof (firstn_length mm (skipn off (d_content d))) as LF; rewrite skipn_length in LF.
  all: split; [lia|]; split.
  1, 3: apply firstn_more; lia.
  all: split; [lia|]; cbn [length] in LS.
  all: split; [|split; [destruct (d_eager d && _); discriminate|intros _ _ P; lia]].
  all: destruct (Nat.eqb_spec (length (firstn mm (skipn off (d_content d)))) (length (skipn off (d_content d)))) as [X|X]; [rewrite (skipn_length off) in X; lia|];
    destruct (d_eager d); discriminate.
Qed.

(** Whatever it returns is a prefix of the content, and all of it if there is no error. *)
Lemma read_loop_sound G d fuel : forall k arr len data bad, len <= length (d_content d) -> len <= length arr ->
  firstn len arr = firstn len (d_content d) -> read_loop G d fuel k arr len = Ok (data, bad) ->
  (bad = false -> data = d_content d) /\ (bad = true -> d_fail d <> None /\ exists n, data = firstn n (d_content d)).
Proof.
  induction fuel as [|fuel IH]; intros k arr len data bad LC LA P Q; [discriminate|]. cbn [read_loop] in Q.
  set (a := if (length arr <=? len) then arr ++ 0%Z :: repeat 0%Z (G (length arr)) else arr) in *.
  assert (LA' : len < length a /\ firstn len a = firstn len arr).
  { unfold a. destruct (Nat.leb_spec (length arr) len) as [L|L]; [|auto]. rewrite app_length. cbn [length]. split; [lia|].
    rewrite firstn_app. replace (len - length arr) with 0 by lia. cbn [firstn]. apply app_nil_r. }
  destruct LA' as [LA1 LA2]. destruct (f_read d k len (length a - len)) as [b e] eqn:R.
  destruct (f_read_spec d k len _ b e LC R) as (R1 & R2 & R3 & R4 & R5 & R6).
  set (a' := firstn len a ++ b ++ skipn (len + length b) a) in *.
  assert (LF : length (firstn len a) = len) by (rewrite firstn_length; lia).
  assert (P' : firstn (len + length b) a' = firstn (len + length b) (d_content d)).
  { unfold a'. rewrite app_assoc, firstn_app, app_length, LF. replace (len + length b - (len + length b)) with 0 by lia.
    cbn [firstn]. rewrite app_nil_r, firstn_all2 by (rewrite app_length; lia). rewrite R2. f_equal. congruence. }
  assert (L' : len + length b <= length a') by (unfold a'; rewrite !app_length, LF; lia).
  destruct e as [[|]|].
  - injection Q as <- <-. split; [|discriminate]. intros _. rewrite P', (R4 eq_refl). apply firstn_all.
  - injection Q as <- <-. split; [discriminate|]. intros _. split; [rewrite (R5 eq_refl); discriminate|]. exists (len + length b). exact P'.
  - exact (IH (S k) a' (len + length b) data bad R3 L' P' Q).
Qed.
(** It returns when every read delivers something until the end. *)
Lemma read_loop_total G d : (forall k, 0 < d_chunk d k) -> forall fuel k arr len, len <= length (d_content d) -> len <= length arr ->
  firstn len arr = firstn len (d_content d) -> length (d_content d) - len < fuel -> exists x, read_loop G d fuel k arr len = Ok x.
Proof.
  intros CH. induction fuel as [|fuel IH]; intros k arr len LC LA P F; [lia|]. cbn [read_loop].
  set (a := if (length arr <=? len) then arr ++ 0%Z :: repeat 0%Z (G (length arr)) else arr) in *.
  assert (LA' : len < length a /\ firstn len a = firstn len arr).
  { unfold a. destruct (Nat.leb_spec (length arr) len) as [L|L]; [|auto]. rewrite app_length. cbn [length]. split; [lia|].
    rewrite firstn_app. replace (len - length arr) with 0 by lia. cbn [firstn]. apply app_nil_r. }
  destruct LA' as [LA1 LA2]. destruct (f_read d k len (length a - len)) as [b e] eqn:R.
  destruct (f_read_spec d k len _ b e LC R) as (R1 & R2 & R3 & R4 & R5 & R6).
  assert (LF : length (firstn len a) = len) by (rewrite firstn_length; lia).
  destruct e as [[|]|]; [eexists; reflexivity|eexists; reflexivity|]. specialize (R6 eq_refl ltac:(lia) (CH k)). apply IH.
  - exact R3.
  - rewrite !app_length, LF. lia.
  - rewrite app_assoc, firstn_app, app_length, LF. replace (len + length b - (len + length b)) with 0 by lia.
    cbn [firstn]. rewrite app_nil_r, firstn_all2 by (rewrite app_length; lia). rewrite R2. f_equal. congruence.
  - lia.
Qed.

Lemma ReadFile_sound G d fuel data bad : ReadFile G d fuel = Ok (data, bad) ->
  (bad = false -> data = d_content d) /\ (bad = true -> d_fail d <> None /\ exists n, data = firstn n (d_content d)).
Proof. unfold ReadFile. intros Q. refine (read_loop_sound G d fuel 0 _ 0 data bad _ _ _ Q); cbn; auto; lia. Qed.
Lemma ReadFile_total G d : (forall k, 0 < d_chunk d k) -> d_fail d = None ->
  ReadFile G d (S (length (d_content d))) = Ok (d_content d, false).
Proof.
  intros CH NF. destruct (read_loop_total G d CH (S (length (d_content d))) 0 (repeat 0%Z (Z.to_nat (first_cap d))) 0) as [[x bad] R]; cbn [firstn]; auto; try lia.
  destruct (ReadFile_sound G d _ x bad R) as [S1 S2]. unfold ReadFile. rewrite R. destruct bad; [destruct (S2 eq_refl); congruence|].
  rewrite (S1 eq_refl). reflexivity.
Qed.
