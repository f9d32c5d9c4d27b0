(** Facts about the example environment of Env0.v. *)
From Verif Require Import Base Env0 Tactics BsonSpec.

Lemma dec_digits_read f : forall n acc, 0 <= n < 2 ^ Z.of_nat f -> (1 <= f)%nat ->
  digits0 (dec_digits f n acc) 0 = digits0 acc n.
Proof.
  induction f as [|f IH]; intros n acc Hn Hf; [lia|]. cbn [dec_digits].
  destruct (Z.ltb_spec n 10).
  - cbn [digits0]. replace ((48 <=? 48 + n) && (48 + n <=? 57)) with true by lia. f_equal; lia.
  - rewrite Nat2Z.inj_succ, Z.pow_succ_r in Hn by lia.
    destruct f as [|f].
    { change (2 ^ Z.of_nat 0) with 1 in Hn. lia. }
    rewrite IH; [|split; [apply Z.div_pos; lia|]|lia].
    + cbn [digits0].
      replace ((48 <=? 48 + n mod 10) && (48 + n mod 10 <=? 57)) with true by lia. f_equal; lia.
    + apply Z.div_lt_upper_bound; lia.
Qed.
Lemma dec_digits_head f : forall n acc, 0 <= n -> (1 <= f)%nat ->
  exists c r, dec_digits f n acc = c :: r /\ 48 <= c <= 57.
Proof.
  induction f as [|f IH]; intros n acc Hn Hf; [lia|]. cbn [dec_digits].
  destruct (Z.ltb_spec n 10); [eexists _, _; split; [reflexivity|lia]|].
  destruct f as [|f]; [eexists _, _; split; [reflexivity|lia]|].
  apply IH; lia.
Qed.
Lemma log2_bound n : 0 <= n -> n < 2 ^ Z.of_nat (S (Z.to_nat (Z.log2 n))).
Proof.
  intros Hn. rewrite Nat2Z.inj_succ, Z2Nat.id by apply Z.log2_nonneg.
  destruct (Z.eq_dec n 0) as [->|]; [reflexivity|]. apply Z.log2_spec; lia.
Qed.
Lemma str2int0_fmt i d : 0 <= i -> str2int0 (fmt_int i) d = i.
Proof.
  intros Hi. unfold fmt_int. destruct (Z.ltb_spec i 0); [lia|]. unfold dec_nat.
  destruct (dec_digits_head (S (Z.to_nat (Z.log2 i))) i []) as (c & r & Hc & Hr); [lia|lia|].
  pose proof (dec_digits_read (S (Z.to_nat (Z.log2 i))) i []) as Hd.
  rewrite Hc in *. unfold str2int0.
  assert (Hp : exists p, c = Z.pos p) by (destruct c; [lia|eauto|lia]). destruct Hp as [p ->].
  rewrite Hd; [|split; [lia|apply log2_bound; lia]|lia]. cbn [digits0].
  do 6 (destruct p; try reflexivity; try lia).
Qed.
Lemma env0_index ic : index_parser_ok (env0 ic).
Proof. intros i d Hi. apply str2int0_fmt; lia. Qed.
