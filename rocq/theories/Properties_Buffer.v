(** Properties C43 and C55: binary values and the memory behind them. *)
From Coq Require Import String.
From Verif Require Import Base HeapModel Tactics Env0 HeapBase BufferModel BufferThms JsonModel.

(** ** C43 *)
Definition is_binary (t : vtype) : Prop := t = TBinary \/ t = TExBinary.

Lemma binary_getters w v t d : b_dt (w_val w v) = t -> read (w_mem w) (b_bin (w_val w v)) = d -> good (w_mem w) (b_bin (w_val w v)) ->
  read (w_mem w) (Binary w v) = data_of (t, d) /\ BinLen w v = List.length (data_of (t, d)) /\
  BinExtType w v = match t with TExBinary => hd 0 d | _ => 0 end.
Proof.
  intros T D A. subst t d. destruct (binary_good (w_mem w) w v eq_refl A) as [_ R]. split; [exact R|].
  pose proof (read_len _ _ A) as RL. unfold BinLen, BinExtType, data_of. cbn [fst snd].
  destruct (b_dt (w_val w v)); try (split; reflexivity).
  - split; [symmetry; exact RL|reflexivity].
  - destruct (Nat.ltb_spec 0 (s_len (b_bin (w_val w v)))) as [L|L];
      destruct (read (w_mem w) (b_bin (w_val w v))) as [|x r]; cbn [List.length] in RL; try lia.
    + split; [cbn [tl]; lia|reflexivity].
    + split; reflexivity.
Qed.

(** After a copying [SetBinary], from any slice, even part of the value's own buffer. *)
Theorem C43_content : forall G w v b,
  is_binary (b_dt (w_val w v)) -> good (w_mem w) (b_bin (w_val w v)) -> good (w_mem w) b ->
  let w' := SetBinary G w v b true in
  read (w_mem w') (Binary w' v) = read (w_mem w) b /\ BinLen w' v = s_len b /\
  (b_dt (w_val w v) = TExBinary -> (0 < s_len (b_bin (w_val w v)))%nat -> BinExtType w' v = BinExtType w v).
Proof.
  intros G w v b IB A B w'. destruct (set_binary_ok G w v b A) as (C1 & C2 & C3 & _). fold w' in C1, C2, C3.
  destruct (binary_getters w' v _ _ C2 C3 (proj1 C1)) as (R & L & X). rewrite <- surjective_pairing in R, L.
  pose proof (read_len _ _ B) as RB. pose proof (read_len _ _ A) as RA.
  destruct (binary_getters w v _ _ eq_refl eq_refl A) as (_ & _ & X0).
  assert (Q : data_of (set_data (pure_of w v) (read (w_mem w) b)) = read (w_mem w) b).
  { unfold pure_of. destruct IB as [-> | ->]; [reflexivity|]. destruct (read (w_mem w) (b_bin (w_val w v))); reflexivity. }
  rewrite Q in R, L. split; [exact R|]. split; [congruence|]. intros D P. rewrite X, X0. unfold pure_of. rewrite D.
  destruct (read (w_mem w) (b_bin (w_val w v))); [cbn [List.length] in RA; lia|reflexivity].
Qed.
Print Assumptions C43_content.

(** It writes the value's own array at most, and no field of another value. *)
Theorem C43_own_array : forall G w v b, good (w_mem w) (b_bin (w_val w v)) ->
  let w' := SetBinary G w v b true in
  (forall a, (a < m_next (w_mem w))%nat -> ((0 < s_cap (b_bin (w_val w v)))%nat -> a <> s_arr (b_bin (w_val w v))) ->
     m_arr (w_mem w') a = m_arr (w_mem w) a) /\
  (forall u, u <> v -> w_val w' u = w_val w u).
Proof. intros G w v b A w'. destruct (set_binary_ok G w v b A) as ((_ & _ & C3 & _) & _ & _ & C4). split; [exact C3|exact C4]. Qed.
Print Assumptions C43_own_array.

(** Any history of calls that copy, mixed with writes of the program to its own buffers: every value and
    every buffer has the content it has when values and buffers are independent byte strings. *)
Theorem C43_history : forall G os t, pure_run pure0 os = Some t ->
  exists p, brun G prog0 os = Ok p /\ shows p t /\
    forall v, read (w_mem (p_w p)) (Binary (p_w p) v) = data_of (u_val t v) /\
              BinLen (p_w p) v = List.length (data_of (u_val t v)) /\
              BinExtType (p_w p) v = match fst (u_val t v) with TExBinary => hd 0 (snd (u_val t v)) | _ => 0 end.
Proof.
  intros G os t R. destruct (run_shows G os prog0 pure0 t (proj1 start_ok) (proj2 start_ok) R) as (p & P & SP & SH).
  exists p. split; [exact P|]. split; [exact SH|]. intros v. destruct (proj1 SH v) as [V1 V2].
  pose proof (binary_getters (p_w p) v _ _ V1 V2 (proj1 SP (HV v))) as X. rewrite <- surjective_pairing in X. exact X.
Qed.
Print Assumptions C43_history.

(** Decoding with copies: the value gets the [n] bytes, and only its own array is written. *)
Theorem C43_decode_copy : forall G w v b n w', good (w_mem w) (b_bin (w_val w v)) -> good (w_mem w) b -> (n <= s_len b)%nat ->
  decode_bin G w v b n false = Ok w' ->
  read (w_mem w') (b_bin (w_val w' v)) = firstn n (read (w_mem w) b) /\
  (forall a, (a < m_next (w_mem w))%nat -> ((0 < s_cap (b_bin (w_val w v)))%nat -> a <> s_arr (b_bin (w_val w v))) ->
     m_arr (w_mem w') a = m_arr (w_mem w) a).
Proof.
  intros G w v b n w' A B N. unfold decode_bin. destruct (read_reslice _ b 0 n B ltac:(lia) N) as (s & -> & R).
  cbn [bind]. intros Q. injection Q as <-. destruct (refill_ok G w v s A) as ((_ & _ & C3 & _) & _ & C2 & _). unfold refill in C2, C3.
  split; [|exact C3]. rewrite C2, R, Nat.sub_0_r. reflexivity.
Qed.
Print Assumptions C43_decode_copy.

(** Two buffers, two values; the second value takes a part of what the first holds. *)
Definition copy_ops : list bop :=
  [BNew (bs "hello") 3; BNew (bs "xyz") 0; BReset 0 TBinary; BReset 1 TExBinary; BExt 1 7; BSet 0 (SBuf 0 1 5) true;
   BSet 1 (SVal 0 0 2) true; BSet 0 (SVal 0 2 4) true; BWrite 0 1 88; BSet 1 (SBuf 1 0 3) true].
Example C43_nonvacuous : exists t, pure_run pure0 copy_ops = Some t /\
  u_val t 0%nat = (TBinary, bs "lo") /\ u_val t 1%nat = (TExBinary, 7 :: bs "xyz") /\ u_bufs t = [bs "hXllo"; bs "xyz"].
Proof. eexists. split; [vm_compute; reflexivity|]. repeat split. Qed.
Example C43_step_nonvacuous :
  let w := mkW (mkMem (upd (fun _ => []) 0%nat (bs "abcd")) 1) (fun _ => mkB TExBinary 0 (mkSl 0 0 4 4)) in
  is_binary (b_dt (w_val w 0)) /\ good (w_mem w) (b_bin (w_val w 0)) /\ good (w_mem w) (mkSl 0 2 2 2) /\
  read (w_mem (SetBinary (fun _ _ => 0%nat) w 0 (mkSl 0 2 2 2) true)) (Binary (SetBinary (fun _ _ => 0%nat) w 0 (mkSl 0 2 2 2) true) 0) = bs "cd" /\
  (exists w', decode_bin (fun _ _ => 0%nat) w 0 (mkSl 0 1 3 3) 2 false = Ok w').
Proof.
  intros w. split; [right; reflexivity|]. split; [repeat split; cbn; lia|]. split; [repeat split; cbn; lia|].
  split; [vm_compute; reflexivity|]. eexists. reflexivity.
Qed.

(** Without copying, a later copying call writes into the program's buffer, and into other values. *)
Definition share_ops : list bop :=
  [BNew (bs "hello") 0; BNew (bs "J") 0; BReset 0 TBinary; BReset 1 TBinary; BSet 0 (SBuf 0 0 5) false; BSet 1 (SBuf 0 0 5) false;
   BSet 0 (SBuf 1 0 1) true].
Theorem C43_shared_refuted : forall G, exists p, brun G prog0 share_ops = Ok p /\
  read (w_mem (p_w p)) (nth 0 (p_bufs p) nil_slice) = bs "Jello" /\
  read (w_mem (p_w p)) (Binary (p_w p) 1) = bs "Jello" /\ read (w_mem (p_w p)) (Binary (p_w p) 0) = bs "J".
Proof. intros G. eexists. split; [vm_compute; reflexivity|]. repeat split; vm_compute; reflexivity. Qed.
Print Assumptions C43_shared_refuted.

(** [SetBinary] on an extension value without a type code turns it into a plain binary, whose type code
    cannot be set any more. *)
Theorem C43_ext_lost_refuted : forall G w v b t, b_dt (w_val w v) = TExBinary -> s_len (b_bin (w_val w v)) = 0%nat ->
  let w' := SetExtType G (SetBinary G w v b true) v t in b_dt (w_val w' v) = TBinary /\ BinExtType w' v = 0.
Proof.
  intros G w v b t D L w'.
  assert (T : b_dt (w_val (SetBinary G w v b true) v) = TBinary).
  { unfold SetBinary. rewrite D, L. cbn [Nat.ltb Nat.leb]. unfold refill. rewrite set_bin_val, Nat.eqb_refl.
    cbn [b_dt ResetB w_val]. rewrite upd_same. reflexivity. }
  assert (Q : w' = SetBinary G w v b true) by (unfold w', SetExtType; rewrite T; reflexivity).
  rewrite Q. split; [exact T|]. unfold BinExtType. rewrite T. reflexivity.
Qed.
Print Assumptions C43_ext_lost_refuted.
Example C43_ext_nonvacuous : let w := ResetB (p_w prog0) 3 TExBinary in b_dt (w_val w 3%nat) = TExBinary /\ s_len (b_bin (w_val w 3%nat)) = 0%nat.
Proof. split; reflexivity. Qed.

(** ** C55: [String] of a binary *)
Definition wanted (ext : Z) : nat := if ext =? 19 then 16%nat else 12%nat.
(** It panics exactly when the buffer, with its spare capacity, is shorter than the part shown. *)
Theorem C55_panics : forall E w v,
  StringB E w v = Panic <-> (s_cap (b_bin (w_val w v)) < wanted (b_ext (w_val w v)))%nat.
Proof.
  intros E w v. unfold StringB, wanted, prefix.
  assert (RS : forall n, reslice (b_bin (w_val w v)) 0 n = if (n <=? s_cap (b_bin (w_val w v)))%nat then Ok (mkSl (s_arr (b_bin (w_val w v))) (s_off (b_bin (w_val w v)) + 0) (n - 0) (s_cap (b_bin (w_val w v)) - 0)) else Panic) by reflexivity.
  rewrite !RS.
  destruct (Z.eqb_spec (b_ext (w_val w v)) 7) as [->|_]; [cbv [Z.eqb Pos.eqb]|destruct (b_ext (w_val w v) =? 19)].
  all: match goal with |- context [(?n <=? s_cap _)%nat] => destruct (Nat.leb_spec n (s_cap (b_bin (w_val w v)))) end.
  all: cbn [bind]; split; intros H1; try discriminate; try lia; reflexivity.
Qed.
Print Assumptions C55_panics.
(** For a binary long enough it shows the value's first bytes. *)
Theorem C55_shows_prefix : forall E w v, good (w_mem w) (b_bin (w_val w v)) ->
  (wanted (b_ext (w_val w v)) <= s_len (b_bin (w_val w v)))%nat ->
  StringB E w v = format_binary E (b_ext (w_val w v)) (read (w_mem w) (b_bin (w_val w v))).
Proof.
  intros E w v A. pose proof (read_len _ _ A) as RL. unfold StringB, wanted, prefix, format_binary, zlen. rewrite RL.
  destruct (Z.eqb_spec (b_ext (w_val w v)) 7) as [->|_]; [cbv [Z.eqb Pos.eqb]|destruct (b_ext (w_val w v) =? 19)]; intros L.
  all: match goal with |- context [reslice _ 0 ?n] => destruct (read_reslice _ _ 0 n A ltac:(lia) L) as (s & -> & R) end.
  all: cbn [bind]; rewrite R; cbn [skipn Nat.sub].
  all: match goal with |- context [?a <? ?b] => destruct (Z.ltb_spec a b); [lia|] end; reflexivity.
Qed.
Print Assumptions C55_shows_prefix.
(** After [Reset] the kind of the binary the value held before does not matter. *)
Theorem C55_reset : forall E G w v b, good (w_mem w) b -> let w' := SetBinary G (ResetB w v TBinary) v b true in
  b_ext (w_val w' v) = 0 /\ ((12 <= s_len b)%nat -> StringB E w' v = format_binary E 0 (read (w_mem w) b)).
Proof.
  intros E G w v b B w'. pose proof (reset_ok w v TBinary) as ((R1 & _) & _).
  destruct (set_binary_ok G (ResetB w v TBinary) v b R1) as ((A & _) & C2 & C3 & _). fold w' in A, C2, C3.
  assert (X : b_ext (w_val w' v) = 0).
  { assert (V : w_val (ResetB w v TBinary) v = mkB TBinary 0 nil_slice) by (unfold ResetB; cbn [w_val]; apply upd_same).
    subst w'. unfold SetBinary. rewrite V. cbn [b_dt]. unfold refill. rewrite set_bin_val, Nat.eqb_refl, V. reflexivity. }
  split; [exact X|]. intros L. unfold pure_of in C3. cbn [ResetB w_val w_mem] in C3. rewrite upd_same in C3. cbn in C3.
  pose proof (read_len _ _ A) as RA. pose proof (read_len _ _ B) as RB. rewrite C3 in RA.
  rewrite C55_shows_prefix, X, C3; auto. rewrite X. unfold wanted. cbn. lia.
Qed.
Print Assumptions C55_reset.
Example C55_reset_case : forall ic, let w := mkW (mkMem (fun _ => bs "0123456789ab") 1) (fun _ => mkB TBinary 7 nil_slice) in
  let b := mkSl 0 0 12 12 in good (w_mem w) b /\
  StringB (env0 ic) (SetBinary (fun _ _ => O) (ResetB w 3 TBinary) 3 b true) 3 <> StringB (env0 ic) (SetBinary (fun _ _ => O) w 3 b true) 3.
Proof. intros ic w b. split; [unfold good; cbn; lia|]. destruct ic; vm_compute; discriminate. Qed.
(** A shorter one may show bytes that do not belong to it: of the program's buffer it shares, or of what the
    value held before. *)
Definition leak_ops : list bop := [BNew (bs "k=1;pass=abcd") 0; BReset 0 TBinary; BSet 0 (SBuf 0 0 3) false].
Definition stale_ops : list bop := [BNew (bs "k=1;pass=abcd") 0; BReset 0 TBinary; BSet 0 (SBuf 0 0 13) true; BSet 0 (SBuf 0 0 3) true].
Theorem C55_leak_refuted : forall E G, forall os, os = leak_ops \/ os = stale_ops -> exists p, brun G prog0 os = Ok p /\
  read (w_mem (p_w p)) (Binary (p_w p) 0) = bs "k=1" /\
  StringB E (p_w p) 0 = Ok (bs "Bin(" ++ x_bin2hex E (bs "k=1;pass=abc") ++ bs ")").
Proof.
  intros E G os [-> | ->].
  - eexists. split; [vm_compute; reflexivity|]. split; reflexivity.
  - eexists. split; [vm_compute; reflexivity|]. split; reflexivity.
Qed.
Print Assumptions C55_leak_refuted.
(** A binary read from a file, with its first bytes shown; and one that panics. *)
Example C55_nonvacuous : forall G, exists p, brun G prog0 [BReset 0 TBinary; BFile 0 (bs "0123456789abcdef") 4; BReset 1 TBinary; BFile 1 (bs "abc") 0] = Ok p /\
  good (w_mem (p_w p)) (b_bin (w_val (p_w p) 0)) /\
  (wanted (b_ext (w_val (p_w p) 0)) <= s_len (b_bin (w_val (p_w p) 0)))%nat /\
  (s_cap (b_bin (w_val (p_w p) 1)) < wanted (b_ext (w_val (p_w p) 1)))%nat.
Proof. intros G. eexists. split; [vm_compute; reflexivity|]. split; [repeat split; cbn; lia|]. split; cbn; lia. Qed.
