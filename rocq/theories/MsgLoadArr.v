(** [LoadFromMsgPack] of a map into an array. *)
From Verif Require Import Base Values Tactics MsgPackModel MsgPackSpec MsgPackThms MsgPackFuel HeapModel MsgLoadModel HeapSpec MsgLoadSpec HeapBase HeapConf HeapGet HeapCalls HeapObj HeapForce HeapTree HeapClone HeapTyped HeapBuild MsgLoadThms.

Section MsgLoadArr.
Variable E : env.
Variable G : nat -> nat.
Notation N := none_set.

(** The first key is no number: the array becomes an object. *)
Lemma stored_first_arr s r k p : (5 <= r)%nat -> c_dt (hp s r) = TArray -> x_str2int E k (-1) = -1 ->
  stored_at s r p (SetKeyValue E G s r k p) /\
  forall (R : ptr -> value -> Prop) v, R p v ->
    exists u' kvs', set_key_value E (VObject false []) k v = VObject u' kvs' /\
    c_dt (hp (SetKeyValue E G s r k p) r) = TObject /\ c_unesc (hp (SetKeyValue E G s r k p) r) = u' /\
    Forall2 (kvR R) (c_kvs (hp (SetKeyValue E G s r k p) r)) kvs' /\
    puts [] p (map snd (c_kvs (hp (SetKeyValue E G s r k p) r))).
Proof.
  intros L5 D1 D2.
  assert (RS : Reset s r TObject = set_cell s r (reset_cell (hp s r) TObject)) by (unfold Reset; rewrite not_shared by auto; auto).
  assert (HR : hp (Reset s r TObject) r = reset_cell (hp s r) TObject) by (rewrite RS; cbn [set_cell hp]; apply upd_same).
  assert (DR : c_dt (hp (Reset s r TObject) r) = TObject) by (rewrite HR; reflexivity).
  assert (Q : SetKeyValue E G s r k p = SetKeyValue E G (Reset s r TObject) r k p).
  { unfold SetKeyValue. rewrite DR, D1, D2. change (vt_eqb TObject TArray) with false. change (vt_eqb TObject TObject) with true.
    change (vt_eqb TArray TObject) with false. change (vt_eqb TArray TArray && negb (-1 =? -1)) with false. cbn [andb]. reflexivity. }
  pose proof (stored_key E G (Reset s r TObject) r k p DR) as ST. split.
  - constructor.
    + intros z Z. rewrite Q. rewrite (so_frame _ _ _ _ ST) by auto. rewrite RS. cbn [set_cell hp]. apply upd_other; auto.
    + intros z Z. rewrite Q. apply (so_live _ _ _ _ ST). rewrite RS. apply live_set_cell; auto.
    + intros P PC I O K. apply tr_SetKeyValue; auto.
    + intros P PC s0 C M. rewrite Q. apply (so_conf _ _ _ _ ST); auto. rewrite RS. apply conf_set; auto.
  - intros R v RP. rewrite Q.
    destruct (set_key_cell E G R (Reset s r TObject) r k p v false []) as (u' & kvs' & A & B & C & D & F); auto.
    + rewrite HR. reflexivity.
    + rewrite HR. constructor.
    + exists u', kvs'. do 4 (split; [assumption|]). rewrite HR in F. exact F.
Qed.

(** Once a key has been stored no key is unescaped any more, and the first key stays. *)
Lemma set_head {A} k (x : A) r k1 x1 : exists x' r', obj_set E true ((k, x) :: r) k1 x1 = (true, (k, x') :: r').
Proof.
  unfold obj_set, index_by_name. cbn [negb andb unescape_keys].
  destruct (find_key E ((k, x) :: r) k1) as [i|]; [|cbn [app]; eauto].
  unfold set_val. destruct (nth_error ((k, x) :: r) i) as [[k2 x2]|] eqn:Q; [|eauto].
  destruct i as [|i]; cbn [nth_error set_nth] in *; [injection Q as <- <-|]; eauto.
Qed.
Lemma first_key f : forall n b k x r v t, mp_map E f n b (VObject true ((k, x) :: r)) = Ok (v, t) ->
  exists x' r', v = VObject true ((k, x') :: r').
Proof.
  induction f as [|f IH]; intros n b k x r v t H; [discriminate|]. rewrite mp_map_S in H.
  destruct (Z.leb_spec n 0) as [L|L]; [injection H as <- _; eauto|].
  destruct b as [|code b]; [discriminate|]. destruct (parseStr code b) as [[k1 b1]| | |]; try discriminate. cbn [bind] in H.
  destruct (mp_value E f b1) as [[x1 t1]| | |]; try discriminate. cbn [bind set_key_value] in H.
  destruct (set_head k x r k1 x1) as (x2 & r2 & Q). rewrite Q in H. eapply IH; exact H.
Qed.
Lemma set_empty k x : set_key_value E (VObject false []) k x = VObject true [(k, x)].
Proof. unfold set_key_value, obj_set, index_by_name. cbn [find_key unescape_keys map]. destruct (negb false && no_backslash k); reflexivity. Qed.

(** The receiver is an array still, or an object whose first key is no number. *)
Definition apart (c : cell) : Prop := c_dt c = TArray \/
  (c_dt c = TObject /\ c_unesc c = true /\ exists k p r, c_kvs c = (k, p) :: r /\ x_str2int E k (-1) = -1).
Lemma apart_set s l k p : (5 <= l)%nat -> apart (hp s l) -> apart (hp (SetKeyValue E G s l k p) l).
Proof.
  intros L5 [D|(D & U & k0 & p0 & r0 & KV & X)].
  - destruct (Z.eqb_spec (x_str2int E k (-1)) (-1)) as [Q|Q].
    + right. destruct (stored_first_arr s l k p L5 D Q) as [_ SK].
      destruct (SK (fun q v => q = p) VNull eq_refl) as (u' & kvs' & Q1 & D3 & U3 & F3 & _).
      rewrite set_empty in Q1. injection Q1 as <- <-. split; [exact D3|]. split; [exact U3|].
      inversion F3 as [|[k2 p2] y l2 l3 [K _] F4 E1 E2]; subst. inversion F4; subst. cbn [fst] in K. subst k2.
      exists k, p2, []. auto.
    + left. unfold SetKeyValue. rewrite D. change (vt_eqb TArray TArray) with true.
      destruct (Z.eqb_spec (x_str2int E k (-1)) (-1)); [congruence|]. cbn [andb negb]. unfold SetIndexValue. rewrite D.
      change (vt_eqb TArray TArray) with true. cbv iota zeta.
      destruct ((0 <=? x_str2int E k (-1)) && _); cbn [set_cell hp]; rewrite upd_same; exact D.
  - right. unfold SetKeyValue. rewrite D. change (vt_eqb TObject TArray) with false. change (vt_eqb TObject TObject) with true. cbn [andb].
    unfold obj_index. rewrite U, KV. pose proof (set_head k0 p0 r0 k p) as (p2 & r2 & Q). unfold obj_set in Q.
    destruct (index_by_name E true ((k0, p0) :: r0) k) as [[i|] [u1 l1]]; injection Q as -> Q.
    + cbn [set_cell hp]. rewrite !upd_same. cbn [w_obj c_dt c_unesc c_kvs]. split; [exact D|]. split; [reflexivity|]. rewrite Q. eauto 6.
    + cbn [set_cell hp]. rewrite !upd_same. unfold push_kv. cbn [w_obj c_spare c_kvs c_unesc c_dt].
      destruct (c_spare (hp s l)); cbn [w_obj c_dt c_unesc c_kvs]; (split; [exact D|]; split; [reflexivity|]; rewrite Q; eauto 6).
Qed.
Lemma apart_puts s l k p : (5 <= l)%nat -> apart (hp s l) -> stored_at s l p (SetKeyValue E G s l k p) /\
  puts (kid_ptrs (hp s l)) p (kid_ptrs (hp (SetKeyValue E G s l k p) l)).
Proof.
  intros L5 [D|(D & U & k0 & p0 & r0 & KV & X)].
  - destruct (Z.eqb_spec (x_str2int E k (-1)) (-1)) as [Q|Q].
    + destruct (stored_first_arr s l k p L5 D Q) as [ST SK]. split; [exact ST|].
      destruct (SK (fun q v => q = p) VNull eq_refl) as (u' & kvs' & Q1 & D3 & U3 & F3 & _).
      rewrite set_empty in Q1. injection Q1 as <- <-. unfold kid_ptrs at 2. rewrite D3.
      inversion F3 as [|[k2 p2] y l2 l3 [_ K] F4 E1 E2]; subst. inversion F4; subst. cbn [snd] in *. try subst p2. cbn [map snd].
      exists 0%nat. intros [|i] q H; cbn in H; [injection H as <-; auto|destruct i; discriminate].
    + assert (A : exists a', puts (c_arr (hp s l)) p a' /\ SetKeyValue E G s l k p = set_cell s l (w_arr (hp s l) a') /\
         forall P PC, ok_cell P PC s (hp s l) -> ok_ptr P s p -> ok_cell P PC s (w_arr (hp s l) a')).
      { unfold SetKeyValue. rewrite D. change (vt_eqb TArray TArray) with true.
        destruct (Z.eqb_spec (x_str2int E k (-1)) (-1)); [congruence|]. cbn [andb negb]. unfold SetIndexValue. rewrite D.
        change (vt_eqb TArray TArray) with true. cbv iota zeta.
        destruct ((0 <=? x_str2int E k (-1)) && _); eexists; (split; [|split; [reflexivity|]]).
        - apply puts_set.
        - intros P PC A B. apply okc_set_nth; auto.
        - apply puts_app.
        - intros P PC A B. apply okc_app; auto. }
      destruct A as (a' & PU & -> & OK). split; [apply (stored_set G); [reflexivity|exact OK]|].
      cbn [set_cell hp]. rewrite upd_same. unfold kid_ptrs. cbn [w_arr c_dt c_arr]. rewrite D. exact PU.
  - split; [apply stored_key; exact D|].
    assert (F : Forall2 (kvR (fun (q : ptr) (v : value) => True)) (c_kvs (hp s l)) (map (fun kv => (fst kv, VNull)) (c_kvs (hp s l)))).
    { clear. induction (c_kvs (hp s l)) as [|[a b] r IH]; cbn [map]; [constructor|]. constructor; [split; [reflexivity|exact I]|exact IH]. }
    destruct (set_key_cell E G (fun _ _ => True) s l k p VNull true _ D U F I) as (u' & kvs' & _ & D3 & _ & _ & PU).
    unfold kid_ptrs. rewrite D, D3. exact PU.
Qed.
Lemma live_SetKeyValue s l k p x : live s x -> live (SetKeyValue E G s l k p) x.
Proof.
  intros L. unfold SetKeyValue, SetIndexValue, obj_index, Reset.
  repeat match goal with
  | |- context [if ?c then _ else _] => destruct c
  | |- context [index_by_name ?a ?b ?c ?d] => destruct (index_by_name a b c d) as [[?|] [? ?]]
  end; exact L.
Qed.
Lemma apart_load f : forall s0 s l c n b acc v t, wf s0 -> ok_cache N s0 c -> live s0 l -> grown s0 c l s ->
  wf s -> ok_cache N s c -> live s l -> (5 <= l)%nat -> bytes_ok b ->
  apart (hp s l) -> mp_map E f n b acc = Ok (v, t) ->
  exists s', load_map E G f s l c n b = Ok (s', None) /\ apart (hp s' l) /\ grown s0 c l s'.
Proof.
  induction f as [|f IH]; intros s0 s l c n b acc v t W0 OC0 L0 GR W OC L L5 BB AP H; [discriminate|]. rewrite mp_map_S in H. cbn [load_map].
  destruct (n <=? 0); [exists s; auto|]. destruct b as [|code b]; [discriminate|]. inversion BB as [|? ? BC BB']; subst.
  destruct (parseStr code b) as [[k b1]|e| |] eqn:Q; try discriminate. cbn [bind] in *.
  assert (B1 : bytes_ok b1) by (eapply suffix_ok; [eapply parseStr_suf; exact Q|exact BB']).
  pose proof (proj1 (sim_all E G f) s c b1 W OC B1) as HV.
  destruct (mp_value E f b1) as [[x t1]|e| |]; try discriminate. cbn [bind] in H.
  destruct HV as (s2 & p & H1 & H2 & H3). rewrite H1. cbn [bind].
  destruct (decoded_frame _ _ _ _ _ l H3 L) as [HR L2].
  destruct (proj1 (tr_hm N N E G f) s c b1 s2 _ W OC H1) as [T O].
  assert (OL : ok_loc N s2 l) by (split; [apply L2|intros []]).
  pose proof (tr_SetKeyValue N N E G s2 l k p (proj1 T) OL (O p t1 eq_refl)) as T2.
  pose proof (tr_trans N N _ _ _ T T2) as T3.
  assert (AP2 : apart (hp s2 l)) by (rewrite HR; exact AP).
  destruct (apart_puts s2 l k p L5 AP2) as [ST PU]. rewrite HR in PU.
  destruct (grow_step G s0 c l s x p s2 _ W0 OC0 L0 L5 GR H3 ST PU) as (GR3 & _).
  eapply (IH s0); eauto; [apply T3|apply (ok_cache_tr N N _ _ _ T3); auto| |].
  - apply live_SetKeyValue; auto.
  - apply apart_set; auto.
Qed.
(** An array, with a first key that is no number: as for any other receiver. *)
Lemma load_map_arr f s l c n b v t : wf s -> ok_cache N s c -> live s l -> (5 <= l)%nat -> bytes_ok b -> 0 < n ->
  c_dt (hp s l) = TArray -> c_arr (hp s l) = [] ->
  mp_map E f n b (VObject false []) = Ok (v, t) ->
  exists k x r s', v = VObject true ((k, x) :: r) /\ load_map E G f s l c n b = Ok (s', None) /\ grown s c l s' /\
    (shows (hp s') (Some l) v <-> x_str2int E k (-1) = -1).
Proof.
  intros W OC L L5 BB NP D AR H.
  assert (GR : grown s c l s).
  { apply grown_refl; auto. intros y Y. unfold sees in Y. rewrite D, AR in Y. exact Y. }
  destruct (apart_load f s s l c n b _ v t W OC L GR W OC L L5 BB (or_introl D) H) as (sa & HA & AP & GA).
  destruct f as [|f]; [discriminate|]. pose proof H as H0. rewrite mp_map_S in H. pose proof HA as HA0. cbn [load_map] in HA.
  destruct (Z.leb_spec n 0) as [X|_]; [lia|]. destruct b as [|code b]; [discriminate|]. inversion BB as [|? ? BC BB']; subst.
  destruct (parseStr code b) as [[k b1]|e| |] eqn:Q; try discriminate. cbn [bind] in H, HA.
  assert (B1 : bytes_ok b1) by (eapply suffix_ok; [eapply parseStr_suf; exact Q|exact BB']).
  pose proof (proj1 (sim_all E G f) s c b1 W OC B1) as HV.
  destruct (mp_value E f b1) as [[x t1]|e| |]; try discriminate. cbn [bind] in H.
  destruct HV as (s2 & p & H1 & H2 & H3). rewrite H1 in HA. cbn [bind] in HA.
  destruct (decoded_frame _ _ _ _ _ l H3 L) as [HR L2].
  pose proof H as HF. rewrite set_empty in HF. apply first_key in HF as (x' & r' & ->).
  exists k, x', r', sa. split; [reflexivity|]. split; [exact HA0|]. split; [exact GA|]. split.
  - intros SH. destruct (shows_dt _ _ _ SH) as (D1 & D2 & _). destruct AP as [AP|(_ & _ & k2 & p2 & r2 & KV & X)]; [congruence|].
    destruct SH as (w & RW & LW). destruct w; cbn [low] in LW; try discriminate.
    injection LW as LU LK. inversion RW as [|l0 kvs0 D0 F0 E1 E2| | | | | | | | | | | | | |]; subst l0. subst kvs0.
    rewrite KV in F0. inversion F0 as [|a [k3 w3] l1 l2 [FK _] F1 E3 E4]. subst. cbn [map fst snd] in *. congruence.
  - intros KN.
    destruct (stored_first_arr s2 l k p L5) as [ST SK]; [rewrite HR; auto|auto|].
    set (s3 := SetKeyValue E G s2 l k p) in *.
    destruct (grow_step G s c l s x p s2 s3 W OC L L5 GR H3 ST) as (GR3 & SP & _).
    { destruct (SK (fun _ _ => True) x I) as (u' & kvs' & _ & D3 & _ & _ & IN).
      unfold kid_ptrs at 2. rewrite D3. replace (kid_ptrs (hp s l)) with (@nil ptr); [exact IN|].
      unfold kid_ptrs. rewrite D, AR. reflexivity. }
    destruct (SK (shows (hp s3)) x SP) as (u' & kvs' & Q1 & D3 & U3 & F3 & _). rewrite Q1 in H.
    pose proof (proj2 (proj2 (sim_all E G f)) s s3 l c (n - 1) t1 u' kvs' W OC L L5 GR3 D3 U3 F3 H2) as S1. rewrite H in S1.
    destruct S1 as (s' & S1 & _ & S3 & S2). apply load_map_hm in S1. rewrite S1 in HA. injection HA as <-. exact S2.
Qed.

Theorem load_into_array s s1 l b u k x r : wf s -> bytes_ok b -> Clear s l = Ok s1 -> live s1 l -> (5 <= l)%nat ->
  c_dt (hp s l) = TArray -> NewValueFromMsgPack E b = Ok (VObject u ((k, x) :: r)) ->
  exists s', LoadFromMsgPack E G s l b = Ok (s', None) /\ wf s' /\
    (shows (hp s') (Some l) (VObject u ((k, x) :: r)) <-> x_str2int E k (-1) = -1) /\ only_here s1 l s'.
Proof.
  intros W BB CL L L5 DT H.
  assert (OL : ok_loc N s l). { split; [|intros []]. rewrite <- (Clear_nx s l s1 CL). apply L. }
  pose proof (tr_Clear N N s l s1 W OL CL) as T. pose proof (ok_loc_tr N N _ _ _ T OL) as OL1. assert (W1 : wf s1) by apply T.
  pose proof (Clear_cell s l s1 CL) as HC. destruct (clear_same (hp s l)) as (C1 & C2 & C3 & C4 & C5 & C6 & C7).
  rewrite <- HC in C1, C2, C3, C4, C5, C6, C7.
  cut (exists s', LoadFromMsgPack E G s l b = Ok (s', None) /\ (shows (hp s') (Some l) (VObject u ((k, x) :: r)) <-> x_str2int E k (-1) = -1) /\ only_here s1 l s').
  { intros (s' & Q & R). exists s'. split; [exact Q|]. split; [apply (tr_LoadMsg N N E G s l b s' None W OL Q)|exact R]. }
  unfold LoadFromMsgPack. rewrite CL. cbn [bind]. rewrite new_eq, dec_eq in H.
  destruct b as [|code b]; [discriminate|]. inversion BB as [|? ? BC BB']; subst. unfold parseMsgPack2Value.
  assert (SC : forall y kvs, (do (v, _) <- parseScalar E code b; Ok v) <> Ok (VObject y kvs)).
  { intros y kvs Q. destruct (parseScalar E code b) as [[w t]|e| |] eqn:PS; try discriminate. injection Q as ->.
    apply parseScalar_ok in PS; auto. }
  destruct (IsStr code); [destruct (SC _ _ H)|]. destruct (IsArray code).
  { destruct (parseArrLen code b) as [[n b1]|e| |] eqn:Q; try discriminate. cbn [bind] in H.
    destruct (Z.eqb_spec n 0) as [_|NZ]; [discriminate|].
    destruct (decarr E n b1 []) as [[w t]|e| |] eqn:DA; try discriminate. injection H as ->.
    rewrite <- (mp_array_dec E (mp_fuel (code :: b))) in DA by (pose proof (parseArrLen_len _ _ _ _ Q); unfold mp_fuel; cbn [length]; lia).
    apply (mp_array_shape E G) in DA as (vs & X & _). discriminate X. }
  destruct (IsMap code); [|destruct (SC _ _ H)]. clear SC.
  destruct (parseMapLen code b) as [[n b1]|e| |] eqn:Q; try discriminate. cbn [bind] in H.
  assert (B1 : bytes_ok b1) by (eapply suffix_ok; [eapply parseMapLen_suf; exact Q|exact BB']).
  pose proof (parseMapLen_len _ _ _ _ Q) as LE.
  destruct (Z.eqb_spec n 0) as [_|NZ]; [discriminate|].
  pose proof (parseMapLen_pos _ _ _ _ BB' Q) as NP. destruct b1 as [|k0 b1]; [discriminate|]. destruct (IsStr k0); [|discriminate].
  destruct (decmap E n (k0 :: b1) (VObject false [])) as [[w t]|e| |] eqn:DA; try discriminate. injection H as ->.
  rewrite <- (mp_map_dec E (mp_fuel (code :: b))) in DA by (unfold mp_fuel; cbn [length] in *; lia).
  destruct (load_map_arr (mp_fuel (code :: b)) s1 l (c_own (hp s1 l)) n (k0 :: b1) (VObject u ((k, x) :: r)) t) as (k' & x' & r' & s' & QV & S1 & S3 & S2); auto.
  - apply (own_ok N N); auto.
  - lia.
  - congruence.
  - injection QV as -> <- <- <-. exists s'. split; [exact S1|]. split; [exact S2|eapply grown_here; eauto].
Qed.
Theorem load_any s s1 l b v : wf s -> bytes_ok b -> Clear s l = Ok s1 -> live s1 l -> (5 <= l)%nat ->
  NewValueFromMsgPack E b = Ok v ->
  exists s', LoadFromMsgPack E G s l b = Ok (s', None) /\ wf s' /\
    (shows (hp s') (Some l) v <-> load_exact E (hp s l) v) /\ only_here s1 l s'.
Proof.
  intros W B CL L L5 Q.
  destruct v; try match goal with kvs : list (bytes * value) |- _ => destruct kvs as [|[k x] r] end;
    try (destruct (load_content E G s s1 l b _ W B CL L L5 Q) as (s' & A);
         [intros (_ & u0 & kvs & X & NE); congruence|exists s'; exact A]).
  destruct (vt_eqb (c_dt (hp s l)) TArray) eqn:D.
  - apply (proj1 (HeapBase.vt_eqb_eq _ _)) in D.
    destruct (load_into_array s s1 l b _ k x r W B CL L L5 D Q) as (s' & A1 & A2 & A3 & A4).
    exists s'. split; [exact A1|]. split; [exact A2|]. split; [|exact A4]. rewrite A3. cbn [load_exact]. tauto.
  - apply vt_eqb_neq in D.
    destruct (load_content E G s s1 l b _ W B CL L L5 Q) as (s' & A1 & A2 & A3 & A4); [intros [X _]; congruence|].
    exists s'. split; [exact A1|]. split; [exact A2|]. split; [|exact A4]. rewrite A3. cbn [load_exact load_agrees]. tauto.
Qed.
End MsgLoadArr.
