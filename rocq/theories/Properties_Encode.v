(** Properties C74-C77: encoding from memory. *)
From Coq Require Import String.
From Verif Require Import Base Values Tactics Env0 MsgPackModel BsonModel JsonModel MsgPackSpec BsonSpec JsonSpec BsonRound BsonEncode JsonWrite JsonThms MsgPackThms Env0Thms.
From Verif Require Import HeapModel MsgLoadModel JsonLoadModel BsonLoadModel HeapSpec MsgLoadSpec JsonLoadSpec HeapBase HeapConf HeapGet HeapCalls HeapClone HeapEqual
  EncodeModel EncodeThms EncodeRead EncodeRound HeapView
  Properties_MsgPack Properties_Bson Properties_Json Properties_Map Properties_Heap Properties_Clone Properties_Merge Properties_MsgLoad Properties_JsonLoad Properties_Reflect Properties_BsonLoad.
Local Notation shows := MsgLoadSpec.shows.
Local Notation plain := MsgPackSpec.plain.

(** ** C74 *)
(** Each encoder, given cells that unfold to the tree [v], appends exactly the bytes of the tree encoder
    (C01-C27) and fails exactly when it does.  MsgPack and escaped JSON change no cell.  The others change
    nothing that can be read, and make no cell. *)
Theorem C74_msgpack : forall E v, exists n0, forall fuel s p dst, (n0 <= fuel)%nat -> rep (hp s) p v ->
  h_Value2MsgPack E fuel s p dst = Ok (Value2MsgPack E v dst).
Proof. intros E v. exact (mp_correct E v). Qed.
Print Assumptions C74_msgpack.

(** The outcome [r] of an encoder started in [s] is that of the tree encoder; [quiet] when it may not
    even unescape. *)
Definition encodes (E : env) (quiet : Prop) (r : res (bytes * st)) (s : st) (t : res bytes) : Prop :=
  match t with
  | Ok d => exists s', r = Ok (d, s') /\ same_reading E s s' /\ nx s' = nx s /\ cs s' = cs s /\ nc s' = nc s /\ pl s' = pl s /\
      (quiet -> forall x, hp s' x = hp s x)
  | Err e => r = Err e
  | Panic => r = Panic
  | OutOfFuel => False
  end.
Lemma encodes_of E ks rs r s t (quiet : Prop) : (quiet -> ks = false /\ rs = false) -> writes E ks rs r s t -> encodes E quiet r s t.
Proof.
  intros HQ W. destruct t; cbn in *; auto. destruct W as (s' & -> & L & (h & ->)). exists (mkSt h (nx s) (cs s) (nc s) (pl s)).
  split; [auto|]. split; [eapply settles_reading; exact L|]. repeat (split; [auto|]).
  intros Q x. destruct (HQ Q) as [-> ->]. destruct (L x) as [X|[_ [[X _]|[X _]]]]; [exact X|discriminate|discriminate].
Qed.
Theorem C74_json : forall E style escDate v, exists n0, forall fuel s p dst, (n0 <= fuel)%nat -> rep (hp s) p v ->
  encodes E (style <> JSE_NoEscape) (h_Value2Json E style escDate fuel s p dst) s (Value2Json E style escDate v dst).
Proof.
  intros E style escDate v. destruct (json_correct E style escDate false v) as (n0 & H). exists n0. intros fuel s p dst Hf R.
  apply (encodes_of E (unesc_style style) false); [|exact (H fuel s O p dst Hf (frep_rep _ _ _ _ _ _ R))].
  unfold unesc_style. destruct style; [congruence|auto|auto].
Qed.
Print Assumptions C74_json.
Theorem C74_format : forall E style escDate v, exists n0, forall fuel s p dst, (n0 <= fuel)%nat -> rep (hp s) p v ->
  encodes E (style <> JSE_NoEscape) (h_Value2FormatJson E style escDate fuel s p dst) s (Value2FormatJson E style escDate v dst).
Proof.
  intros E style escDate v. destruct (json_correct E style escDate true v) as (n0 & H). exists n0. intros fuel s p dst Hf R.
  apply (encodes_of E (unesc_style style) false); [|exact (H fuel s O p dst Hf (frep_rep _ _ _ _ _ _ R))].
  unfold unesc_style. destruct style; [congruence|auto|auto].
Qed.
Print Assumptions C74_format.
Theorem C74_bson : forall E v, exists n0, forall fuel s p dst, (n0 <= fuel)%nat -> rep (hp s) p v ->
  encodes E False (h_Value2Bson E fuel s p dst) s (Value2Bson E v dst).
Proof.
  intros E v. destruct (h_bson_correct E v) as (n0 & H). exists n0. intros fuel s p dst Hf R.
  apply (encodes_of E true true); [tauto|]. apply H; auto. apply frep_rep. exact R.
Qed.
Print Assumptions C74_bson.

(** An object read from JSON, with an escaped key and escaped strings. *)
Definition esc_json : bytes := bs "{""k\\"":""x\\y"",""l"":[1,""\\""]}".
Definition esc_st : st := st_of e1 g0 [OFromJson None esc_json].
Definition esc_tree : value := VObject false [(bs "k\\", VRawString (bs "x\\y")); (bs "l", VArray [VInt 0 1; VRawString (bs "\\")])].
Example C74_case :
  wf esc_st /\ live esc_st 5 /\ rep (hp esc_st) (Some 5%nat) esc_tree /\
  ok_map fst (h_Value2Json e1 JSE_AllEscape true 9 esc_st (Some 5%nat) []) = Some esc_json /\
  ok_map fst (h_Value2Json e1 JSE_NoEscape true 9 esc_st (Some 5%nat) []) = Some (bs "{""k\"":""x\\y"",""l"":[1,""\\""]}") /\
  ok_map (fun x => view 9 (hp (snd x)) (Some 5%nat)) (h_Value2Json e1 JSE_NoEscape true 9 esc_st (Some 5%nat) []) =
    Some (Some (VObject true [(bs "k\", VRawString (bs "x\\y")); (bs "l", VArray [VInt 0 1; VRawString (bs "\\")])])) /\
  ok_map (fun x => view 9 (hp (snd x)) (Some 5%nat)) (h_Value2Bson e1 9 esc_st (Some 5%nat) []) =
    Some (Some (VObject true [(bs "k\", VString (bs "x\y")); (bs "l", VArray [VInt 0 1; VString (bs "\")])])).
Proof.
  split; [apply st_of_wf; vm_compute; reflexivity|]. split; [apply live_of; vm_compute; reflexivity|].
  split; [apply (view_rep 9); vm_compute; reflexivity|].
  repeat split; vm_compute; reflexivity.
Qed.

(** ** C75 *)
(** Lookups, [Items], [String], [Equal] and the encoders, in any number and on any values, leave every value
    reading as before, and make or free no cell. *)
Theorem C75_reading : forall E G P s os s', Forall reading os -> runs E G P s os s' ->
  same_reading E s s' /\ nx s' = nx s /\ cs s' = cs s /\ nc s' = nc s /\ pl s' = pl s.
Proof.
  intros E G P s os s' F R. destruct (calm_runs E G P s os s' F R) as [L [h ->]]. split; [eapply settles_reading; exact L|]. auto.
Qed.
Print Assumptions C75_reading.
(** So the BSON bytes of a value do not depend on the reads before, nor does the failure. *)
Theorem C75_bson : forall E G P s os s' p v, Forall reading os -> runs E G P s os s' -> rep (hp s) p v ->
  exists n0, forall fuel dst, (n0 <= fuel)%nat ->
    ok_map fst (h_Value2Bson E fuel s' p dst) = ok_map fst (h_Value2Bson E fuel s p dst) /\
    ok_map fst (h_Value2Bson E fuel s p dst) = ok_map (fun x => x) (Value2Bson E (read_out E v) dst).
Proof.
  intros E G P s os s' p v F R V. destruct (proj1 (C75_reading _ _ _ _ _ _ F R) p v V) as (v' & V' & Q).
  destruct (C74_bson E v) as (n1 & H1). destruct (C74_bson E v') as (n2 & H2). exists (Nat.max n1 n2). intros fuel dst Hf.
  specialize (H1 fuel s p dst ltac:(lia) V). specialize (H2 fuel s' p dst ltac:(lia) V').
  rewrite <- (bson_reads E v') in H2. rewrite Q in H2. rewrite <- (bson_reads E v) in H1.
  destruct (Value2Bson E (read_out E v) dst); cbn [encodes] in *.
  - destruct H1 as (? & -> & _), H2 as (? & -> & _). auto.
  - rewrite H1, H2. auto.
  - rewrite H1, H2. auto.
  - contradiction.
Qed.
Print Assumptions C75_bson.
(** A value without unresolved escapes is not changed at all by reads: every encoder then goes on writing
    the same bytes. *)
Theorem C75_settled : forall E G P s os s' p v, Forall reading os -> runs E G P s os s' -> rep (hp s) p v -> read_out E v = v ->
  rep (hp s') p v.
Proof. intros E G P s os s' p v F R V Q. destruct (calm_runs E G P s os s' F R) as [L _]. eapply settled_rep; eauto. Qed.
Print Assumptions C75_settled.
(** In general the other outputs and lookups do depend on earlier reads.  MsgPack and JSON without escaping
    write the stored bytes. *)
Theorem C75_output_refuted : ~ (forall E G P s os s' p v, Forall reading os -> runs E G P s os s' -> wf s -> rep (hp s) p v ->
  exists n0, forall fuel dst, (n0 <= fuel)%nat ->
    h_Value2MsgPack E fuel s' p dst = h_Value2MsgPack E fuel s p dst).
Proof.
  intros H. destruct (H e1 g0 none_set esc_st [OToBson (Some 5%nat)] (st_of e1 g0 [OFromJson None esc_json; OToBson (Some 5%nat)]) (Some 5%nat) esc_tree) as (n0 & X).
  - repeat constructor.
  - apply (run_all_runs e1 g0); vm_compute; reflexivity.
  - apply C74_case.
  - apply C74_case.
  - destruct (C74_msgpack e1 esc_tree) as (n1 & Y).
    destruct (C74_msgpack e1 (VObject true [(bs "k\", VString (bs "x\y")); (bs "l", VArray [VInt 0 1; VString (bs "\")])])) as (n2 & Z).
    set (n := Nat.max n0 (Nat.max n1 n2)). specialize (X n [] ltac:(lia)).
    rewrite (Y n esc_st (Some 5%nat) []) in X by (lia || apply C74_case). rewrite Z in X; [vm_compute in X; discriminate|lia|].
    apply (view_rep 9). vm_compute. reflexivity.
Qed.
Print Assumptions C75_output_refuted.
(** Two keys that differ only in how they are escaped: reading changes which one a lookup finds. *)
Definition twin_json : bytes := bs "{""\a"":2,""a"":1}".
Definition twin_st : st := st_of e1 g0 [OFromJson None twin_json].
Theorem C75_lookup_refuted : ~ (forall E G P s os s' l name, Forall reading os -> runs E G P s os s' -> wf s -> live s l ->
  fst (ValueByName E s' l name) = fst (ValueByName E s l name)).
Proof.
  intros H. specialize (H e1 g0 none_set twin_st [OToBson (Some 5%nat)] (st_of e1 g0 [OFromJson None twin_json; OToBson (Some 5%nat)]) 5%nat (bs "a")).
  assert (X : forall A B : Prop, A -> B -> A /\ B) by auto.
  assert (Q : fst (ValueByName e1 (st_of e1 g0 [OFromJson None twin_json; OToBson (Some 5%nat)]) 5 (bs "a")) = fst (ValueByName e1 twin_st 5 (bs "a"))).
  { apply H; [repeat constructor|apply (run_all_runs e1 g0); vm_compute; reflexivity|apply st_of_wf; vm_compute; reflexivity|apply live_of; vm_compute; reflexivity]. }
  vm_compute in Q. discriminate.
Qed.
Print Assumptions C75_lookup_refuted.
Example C75_lookup_case : view 9 (hp twin_st) (fst (ValueByName e1 twin_st 5 (bs "a"))) = Some (VInt 0 1) /\
  (let s' := st_of e1 g0 [OFromJson None twin_json; OToBson (Some 5%nat)] in view 9 (hp s') (fst (ValueByName e1 s' 5 (bs "a")))) = Some (VInt 0 2).
Proof. split; vm_compute; reflexivity. Qed.
(** Reads of each kind on the object of [esc_st]. *)
Definition esc_reads : list op :=
  [OLookup 5 (bs "zz"); OByIndex 5 0; OString 6; OEqual (Some 5%nat) (Some 7%nat); OToJson (Some 5%nat) JSE_NoEscape true true; OToBson (Some 5%nat)].
Example C75_case : Forall reading esc_reads /\ runs e1 g0 none_set esc_st esc_reads (st_of e1 g0 (OFromJson None esc_json :: esc_reads)) /\
  read_out e1 (VObject true [(bs "k\", VString (bs "x\y")); (bs "l", VArray [VInt 0 1; VString (bs "\")])]) =
    VObject true [(bs "k\", VString (bs "x\y")); (bs "l", VArray [VInt 0 1; VString (bs "\")])].
Proof. split; [repeat constructor|]. split; [apply (run_all_runs e1 g0); vm_compute; reflexivity|vm_compute; reflexivity]. Qed.

(** ** C76 *)
(** What MsgPack reads back is the stored text: keys and strings with their escapes. *)
Theorem C76_msgpack : forall E v, fits E (as_stored v) -> plain E (as_stored v) -> no_fixext (as_stored v) ->
  exists n0, forall fuel G s p uc, (n0 <= fuel)%nat -> wf s -> rep (hp s) p v ->
  exists b s' q, h_Value2MsgPack E fuel s p [] = Ok b /\ h_NewValueFromMsgPack E G s uc b = Ok (s', inr q) /\ wf s' /\
    shows (hp s') q (as_stored v) /\ (forall x, live s x -> hp s' x = hp s x /\ live s' x).
Proof.
  intros E v F P X. destruct (C74_msgpack E v) as (n0 & H). exists n0. intros fuel G s p uc Hf W R.
  pose proof (C01_NewValueFromMsgPack E (as_stored v) [] F P X) as D. rewrite app_nil_r in D.
  destruct (plain_tree E (as_stored v) F P) as (m & Hm & _).
  destruct (C61_content E G s uc _ _ W (msgpack_bytes E _ m F X Hm) D) as (s' & q & A1 & A2 & A3 & A4 & _).
  exists (Value2MsgPack E v []), s', q. rewrite msgpack_stored in A1. auto 8.
Qed.
Print Assumptions C76_msgpack.
(** Through BSON the value is read back with its escapes resolved. *)
Theorem C76_bson : forall E v kvs out, index_parser_ok E -> read_out E v = VObject true kvs -> bplain E (VObject true kvs) ->
  Value2Bson E v [] = Ok out -> zlen out < 2 ^ 32 ->
  exists n0, forall fuel G s l uc, (n0 <= fuel)%nat -> wf s -> live s l -> rep (hp s) (Some l) v ->
  exists s1 s' q, h_Value2Bson E fuel s (Some l) [] = Ok (out, s1) /\ h_NewValueFromBson E G s1 uc out = Ok (s', inr (Some q)) /\ wf s' /\
    rep (hp s') (Some q) (read_out E v) /\
    (forall x, live s x -> hp s' x = hp s1 x /\ live s' x).
Proof.
  intros E v kvs out I RO B O Z. destruct (C74_bson E v) as (n0 & H). exists n0. intros fuel G s l uc Hf W L R.
  specialize (H fuel s (Some l) [] Hf R). rewrite O in H. destruct H as (s1 & Q & SR & N1 & N2 & N3 & N4 & _).
  assert (W1 : wf s1).
  { apply (tr_bson none_set none_set E fuel s (Some l) [] out s1 W); [|exact Q]. intros x Hx. injection Hx as <-. split; [apply L|intros []]. }
  assert (L1 : forall x, live s x -> live s1 x).
  { intros x [A A2]. split; [lia|]. intros k Hk. rewrite N2. apply A2. lia. }
  rewrite <- (bson_reads E v), RO in O.
  destruct (bplain_doc E _ B) as (m & Hd & Hw & _).
  assert (BO : bytes_ok out).
  { pose proof (Value2Bson_conforms E (VObject true kvs) m [] Logic.I Hd) as C. rewrite O in C. injection C as ->. apply payload_bytes, Hw. }
  pose proof (proj2 (C11_roundtrip E true kvs [] out [] I B O Z)) as D. rewrite app_nil_r in D.
  destruct (C68_content E G s1 uc out _ W1 BO D) as (s' & q & A1 & A2 & A3 & A4 & _).
  exists s1, s', q. rewrite RO. repeat (split; [assumption|]). intros x Lx. apply A4, L1, Lx.
Qed.
Print Assumptions C76_bson.
(** Through escaped JSON the value denotes the same after the round trip; nothing is changed by writing. *)
Theorem C76_json : forall E (all : bool) escDate v w, int_parser_ok E -> num_env E -> jplain E all v -> ws w -> (top_int v -> w <> []) ->
  exists n0, forall fuel G s p uc, (n0 <= fuel)%nat -> wf s -> rep (hp s) p v -> (forall l, p = Some l -> live s l) ->
  exists b s1 s' q v', h_Value2Json E (if all then JSE_AllEscape else JSE_OnlyAnsiChar) escDate fuel s p [] = Ok (b, s1) /\
    h_NewValueFromJson E G s1 uc (b ++ w) = Ok (s', inr q) /\ wf s' /\ shows (hp s') q v' /\ denote E v' = denote E v /\
    (forall x, live s x -> hp s' x = hp s x /\ live s' x).
Proof.
  intros E all escDate v w I N J Hw Ht. destruct (C18_roundtrip E _ escDate all v w I eq_refl J Hw Ht) as (b & v' & O & D & Q).
  destruct (C74_json E (if all then JSE_AllEscape else JSE_OnlyAnsiChar) escDate v) as (n0 & H). exists n0. intros fuel G s p uc Hf W R L.
  specialize (H fuel s p [] Hf R). rewrite O in H. destruct H as (s1 & A & SR & N1 & N2 & N3 & N4 & U).
  assert (W1 : wf s1).
  { apply (tr_json none_set none_set E (if all then JSE_AllEscape else JSE_OnlyAnsiChar) escDate false fuel s 0%nat p [] b s1 W); [|exact A]. intros x ->. split; [apply L; auto|intros []]. }
  assert (L1 : forall x, live s x -> live s1 x).
  { intros x [B1 B2]. split; [lia|]. intros k Hk. rewrite N2. apply B2. lia. }
  destruct (C66_content E G s1 uc _ _ N W1 D) as (s' & q & A1 & A2 & A3 & A4 & _).
  exists b, s1, s', q, v'. repeat (split; [assumption|]). intros x Lx. rewrite <- (U ltac:(destruct all; discriminate) x). apply A4, L1, Lx.
Qed.
Print Assumptions C76_json.
(** A MsgPack round trip does not keep what the strings read as: unresolved escapes become text. *)
Theorem C76_msgpack_text_refuted : ~ (forall E G s p v fuel b s' q v', wf s -> rep (hp s) p v ->
  h_Value2MsgPack E fuel s p [] = Ok b -> h_NewValueFromMsgPack E G s None b = Ok (s', inr q) -> shows (hp s') q v' ->
  read_out E v' = read_out E v).
Proof.
  intros H. assert (W : wf esc_st /\ rep (hp esc_st) (Some 5%nat) esc_tree) by (split; apply C74_case). destruct W as [W R].
  destruct (C74_msgpack e1 esc_tree) as (n0 & Y). specialize (Y n0 esc_st (Some 5%nat) [] (le_n _) R).
  assert (D : NewValueFromMsgPack e1 (Value2MsgPack e1 esc_tree []) = Ok (as_stored esc_tree)) by (vm_compute; reflexivity).
  assert (B : bytes_ok (Value2MsgPack e1 esc_tree [])) by (apply bytes_okb; vm_compute; reflexivity).
  destruct (C61_content e1 g0 esc_st None _ _ W B D) as (s' & q & A1 & _ & A3 & _).
  specialize (H e1 g0 esc_st _ _ n0 _ s' q (as_stored esc_tree) W R Y A1 A3).
  apply (f_equal (fun v => match v with VObject _ ((_, VString x) :: _) => List.length x | _ => 0%nat end)) in H. vm_compute in H. discriminate H.
Qed.
Print Assumptions C76_msgpack_text_refuted.

Definition esc_read : value := VObject true [(bs "k\", VString (bs "x\y")); (bs "l", VArray [VInt 0 1; VString (bs "\")])].
Example C76_case : fits e1 (as_stored esc_tree) /\ plain e1 (as_stored esc_tree) /\ no_fixext (as_stored esc_tree) /\
  index_parser_ok e1 /\ read_out e1 esc_tree = esc_read /\ bplain e1 esc_read /\
  (exists out, Value2Bson e1 esc_tree [] = Ok out /\ zlen out < 2 ^ 32) /\
  int_parser_ok e64 /\ jplain e64 true esc_tree /\ ~ top_int esc_tree.
Proof.
  assert (A : fits e1 (as_stored esc_tree) /\ plain e1 (as_stored esc_tree) /\ no_fixext (as_stored esc_tree)).
  { repeat split; try exact I; try (vm_compute; intuition discriminate); try (vm_compute; reflexivity);
      try (unfold bytes_ok, byte_ok; repeat constructor; vm_compute; intuition discriminate);
      try (repeat constructor; vm_compute; reflexivity). }
  destruct A as (A1 & A2 & A3). split; [exact A1|]. split; [exact A2|]. split; [exact A3|].
  split. { apply env0_index. }
  split; [reflexivity|].
  split.
  { unfold esc_read. cbn [bplain fold_right fst snd]. unfold no_nul, names_apart, i64_ok.
    repeat match goal with
    | |- _ /\ _ => split
    | |- bytes_ok _ => apply bytes_okb; reflexivity
    | |- ~ In 0 _ => cbn; intuition discriminate
    | |- ForallOrdPairs _ _ => repeat constructor
    | |- True => exact I
    | |- _ <> [] => discriminate
    | |- true = true => reflexivity
    end; try lia. all: vm_compute; intuition discriminate. }
  split. { eexists. split; [vm_compute; reflexivity|reflexivity]. }
  split. { intros n d H. unfold i64_ok in H. cbn [e64 x_str2int]. pose proof (env0_ints true n d H) as X. change (str2int0 (fmt_int n) d = n) in X. rewrite X. lia. }
  split; [|intros []].
  cbn. repeat split; try discriminate; try tauto; try (intros H; simpl in H; lia).
  all: repeat (apply str_esc || (apply str_plain; [discriminate|discriminate|])); try constructor.
Qed.
