(** Specification vocabulary for the heap model: API calls and their execution, the state invariant
    with a protected part, reachability, abstraction of a pointer to a value tree, and the abstract
    ordered map.  Nothing here is used by HeapModel.v. *)
From Verif Require Import Base Values HeapModel MsgLoadModel JsonLoadModel ReflectModel BsonLoadModel JsonModel EncodeModel.

Definition nat_set := nat -> Prop.
Definition none_set : nat_set := fun _ => False.

(** [x] is stored in the pair list or the element list of the cell. *)
Definition child (c : cell) (x : nat) : Prop :=
  In (Some x) (map snd (c_kvs c)) \/ In (Some x) (c_arr c).

(** All addresses held by a cell exist. *)
Definition valid_cell (s : st) (c : cell) : Prop :=
  (forall x, child c x -> (x < nx s)%nat) /\
  (forall k, c_own c = Some k -> (k < nc s)%nat).

(** A cell that leads neither to a protected cell nor to a protected cache. *)
Definition sep_cell (P PC : nat_set) (c : cell) : Prop :=
  (forall x, child c x -> ~ P x) /\ (forall k, c_own c = Some k -> ~ PC k).

Definition cache_ok (s : st) (c : cache) : Prop :=
  (ca_len c <= List.length (ca_slots c))%nat /\ ca_slots c <> [] /\ NoDup (ca_slots c) /\
  Forall (fun l => (5 <= l < nx s)%nat) (ca_slots c).

(** State invariant.  [P] and [PC] are cells and caches set apart: nothing outside them leads into
    them.  With both empty it is the plain well-formedness of a program state. *)
Record inv (P PC : nat_set) (s : st) : Prop := {
  i_nx : (5 <= nx s)%nat;
  i_const : forall l, (l < 5)%nat -> c_dt (hp s l) = const_type l;
  i_fresh : forall l, (nx s <= l)%nat -> hp s l = zero_cell;
  i_cell : forall l, (l < nx s)%nat -> valid_cell s (hp s l);
  i_sep : forall l, ~ P l -> sep_cell P PC (hp s l);
  i_cache : forall k, (k < nc s)%nat -> cache_ok s (cs s k);
  i_disj : forall k k' l, (k < nc s)%nat -> (k' < nc s)%nat ->
             In l (ca_slots (cs s k)) -> In l (ca_slots (cs s k')) -> k = k';
  i_pool : forall k, In k (pl s) -> (k < nc s)%nat /\ ~ PC k;
  i_P : forall l, P l -> (5 <= l < nx s)%nat;
  i_PC : forall k, PC k -> (k < nc s)%nat;
  i_slots : forall k l, (k < nc s)%nat -> ~ PC k -> In l (ca_slots (cs s k)) -> ~ P l }.

Definition wf (s : st) : Prop := inv none_set none_set s.

(** The protected part is untouched. *)
Definition keeps (P PC : nat_set) (s s' : st) : Prop :=
  (nx s <= nx s')%nat /\ (nc s <= nc s')%nat /\
  (forall l, P l -> hp s' l = hp s l) /\ (forall k, PC k -> cs s' k = cs s k).

(** A cell that is not waiting in the unused part of a cache for recycling. *)
Definition live (s : st) (l : nat) : Prop :=
  (l < nx s)%nat /\
  forall k, (k < nc s)%nat -> ~ In l (skipn (ca_len (cs s k)) (ca_slots (cs s k))).

(** ** Calls of the API.  [donor] is a value whose [ValueCache()] is passed as the cache argument. *)
Inductive op :=
| ONew (t : vtype) | ONewObject | ONewArray | ONewCache (choice : option nat) (t : vtype)
| OReset (l : nat) (t : vtype) | OClear (l : nat) | OFree (p : ptr)
| OSetInt (l : nat) (v : Z) | OSetString (l : nat) (b : bytes) | OSetBool (l : nat) (b : bool)
| OSetDouble (l : nat) (v : Z) | OSetTime (l : nat) (t : Z * Z) | OSetDelphi (l : nat) (v : Z)
| OSetFloat (l : nat) (v : Z)
| OSetKey (l : nat) (name : bytes) (t : vtype)
| OSetKeyCached (l : nat) (name : bytes) (t : vtype) (donor : nat)
| OSetKeyValue (l : nat) (name : bytes) (p : ptr)
| OSetIndex (l : nat) (i : Z) (t : vtype)
| OSetIndexCached (l : nat) (i : Z) (t : vtype) (donor : nat)
| OSetIndexValue (l : nat) (i : Z) (p : ptr)
| OInsert (l : nat) (i : Z) (t : vtype)
| ORemoveIndex (l : nat) (i : Z) | ORemoveKey (l : nat) (name : bytes)
| OExtract (l : nat) (name : bytes)
| OLookup (l : nat) (name : bytes) | OPath (p : ptr) (paths : list bytes)
| OItems (l : nat) (i : Z) | OByIndex (l : nat) (i : Z) | OString (l : nat)
| OEqual (p q : ptr) | OClone (p : ptr) (uc : option (option nat))
| OAddFrom (l from : nat) (donor : option nat) | OCopyFrom (l from : nat) (donor : option nat)
| OMerge (p q : ptr) (fn : option merge_fn)
| OForce (l : nat) (t : vtype) (paths : list bytes)
| OFromMsg (uc : option (option nat)) (b : bytes) | OLoadMsg (l : nat) (b : bytes)
| OFromJson (uc : option (option nat)) (b : bytes) | OLoadJson (l : nat) (b : bytes)
| OFromBson (uc : option (option nat)) (b : bytes) | OLoadBson (l : nat) (b : bytes)
| OSetGo (l : nat) (g : goval) | OSetKeyGo (l : nat) (name : bytes) (g : goval) (donor : nat)
| OSetIndexGo (l : nat) (i : Z) (g : goval) (donor : nat) | OSetBinary (l : nat) (b : bytes)
| OToJson (p : ptr) (style : escape_style) (escDate fmt : bool) | OToBson (p : ptr).

(** The values a call is given. *)
Definition opt_list (p : ptr) : list nat := match p with Some l => [l] | None => [] end.
Definition handles (o : op) : list nat :=
  match o with
  | ONew _ | ONewObject | ONewArray | ONewCache _ _ | OFromMsg _ _ | OFromJson _ _ | OFromBson _ _ => []
  | OReset l _ | OClear l | OSetInt l _ | OSetString l _ | OSetBool l _ | OSetDouble l _
  | OSetTime l _ | OSetDelphi l _ | OSetFloat l _ | OSetKey l _ _ | OSetIndex l _ _
  | OInsert l _ _ | ORemoveIndex l _ | ORemoveKey l _ | OExtract l _ | OLookup l _
  | OItems l _ | OByIndex l _ | OString l | OForce l _ _ | OLoadMsg l _ | OLoadJson l _ | OLoadBson l _
  | OSetGo l _ | OSetBinary l _ => [l]
  | OFree p | OPath p _ | OClone p _ | OToJson p _ _ _ | OToBson p => opt_list p
  | OSetKeyCached l _ _ d | OSetIndexCached l _ _ d | OSetKeyGo l _ _ d | OSetIndexGo l _ _ d => [l; d]
  | OSetKeyValue l _ p | OSetIndexValue l _ p => l :: opt_list p
  | OEqual p q | OMerge p q _ => opt_list p ++ opt_list q
  | OAddFrom l m d | OCopyFrom l m d => l :: m :: opt_list d
  end.

Section Exec.
Variable E : env.
Variable G : nat -> nat.

Definition ret1 (x : nat * st) : res (ptr * st) := Ok (Some (fst x), snd x).
Definition ret0 (s : st) : res (ptr * st) := Ok (None, s).
Definition retr (r : res (nat * st)) : res (ptr * st) := do (l, s) <- r; Ok (Some l, s).
Definition rets (r : res st) : res (ptr * st) := do s <- r; Ok (None, s).
Definition own_of (s : st) (d : option nat) : option nat :=
  match d with Some l => c_own (hp s l) | None => None end.

(** Execute a call: the value it returns (if it returns one) and the new state. *)
Definition run (fuel : nat) (s : st) (o : op) : res (ptr * st) :=
  match o with
  | ONew t => ret1 (NewValue s t)
  | ONewObject => ret1 (NewObject s)
  | ONewArray => ret1 (NewArray s)
  | ONewCache ch t => ret1 (NewCacheValue G s ch t)
  | OReset l t => ret0 (Reset s l t)
  | OClear l => rets (Clear s l)
  | OFree p => rets (FreeValue s p)
  | OSetInt l v => ret0 (SetInt s l v)
  | OSetString l v => ret0 (SetString s l v)
  | OSetBool l v => ret0 (SetBool s l v)
  | OSetDouble l v => ret0 (SetDouble s l v)
  | OSetTime l v => ret0 (SetTime E s l v)
  | OSetDelphi l v => ret0 (SetDelphiTime s l v)
  | OSetFloat l v => ret0 (SetFloat s l v)
  | OSetKey l n t => retr (SetKey E G s l n t)
  | OSetKeyCached l n t d => retr (SetKeyCached E G s l n t (c_own (hp s d)))
  | OSetKeyValue l n p => ret0 (SetKeyValue E G s l n p)
  | OSetIndex l i t => ret1 (SetIndex G s l i t)
  | OSetIndexCached l i t d => ret1 (SetIndexCached G s l i t (c_own (hp s d)))
  | OSetIndexValue l i p => ret0 (SetIndexValue s l i p)
  | OInsert l i t => ret1 (InsertValue s l i t)
  | ORemoveIndex l i => ret0 (RemoveIndex s l i)
  | ORemoveKey l n => ret0 (RemoveKey E s l n)
  | OExtract l n => Ok (ExtractValue E s l n)
  | OLookup l n => Ok (ValueByName E s l n)
  | OPath p ps => Ok (ValueByPath E s p ps)
  | OItems l i => Ok (snd (fst (Items E s l i)), snd (Items E s l i))
  | OByIndex l i => Ok (ValueByIndex s l i, s)
  | OString l => ret0 (set_cell s l (snd (StringOf E (hp s l))))
  | OEqual p q => do (_, s1) <- Equal E fuel s p q; ret0 s1
  | OClone p uc => retr (Clone G fuel s p uc)
  | OAddFrom l m d => rets (AddFrom G fuel s l m (own_of s d))
  | OCopyFrom l m d => rets (CopyFrom G fuel s l m (own_of s d))
  | OMerge p q fn => rets (MergeWith E G fuel s p q fn)
  | OForce l t ps => ForcePath E G s l t ps
  | OFromMsg uc b =>
      do (s1, x) <- h_NewValueFromMsgPack E G s uc b; Ok (match x with inl _ => None | inr p => p end, s1)
  | OLoadMsg l b => do (s1, _) <- LoadFromMsgPack E G s l b; ret0 s1
  | OFromJson uc b =>
      do (s1, x) <- h_NewValueFromJson E G s uc b; Ok (match x with inl _ => None | inr p => p end, s1)
  | OLoadJson l b =>                  (* a failed load is no step: see C67_stale_refuted *)
      do (s1, e) <- h_LoadFromJson E G s l b; match e with None => ret0 s1 | Some e => Err e end
  | OFromBson uc b =>
      do (s1, x) <- h_NewValueFromBson E G s uc b; Ok (match x with inl _ => None | inr p => p end, s1)
  | OLoadBson l b =>                  (* loading into a shared constant is no step *)
      if ReadOnly l then Err ErrBsonType
      else do (s1, _) <- h_LoadFromBson E G s l b; ret0 s1
  | OSetGo l g => rets (SetValue E G s l g)
  | OSetKeyGo l n g d => rets (SetKeyvalue E G s l n g (c_own (hp s d)))
  | OSetIndexGo l i g d => rets (SetIndexvalue E G s l i g (c_own (hp s d)))
  | OSetBinary l b => ret0 (SetBinary s l b)
  | OToJson p style escDate fmt => do (_, s1) <- h_json E style escDate fmt fuel s O p []; ret0 s1
  | OToBson p => do (_, s1) <- h_Value2Bson E fuel s p []; ret0 s1
  end.

(** A program run: every call is given values outside the protected part. *)
Inductive runs (P : nat_set) : st -> list op -> st -> Prop :=
| runs_nil s : runs P s [] s
| runs_cons fuel s o r s1 os s2 :
    (forall l, In l (handles o) -> (l < nx s)%nat /\ ~ P l) ->
    run fuel s o = Ok (r, s1) -> runs P s1 os s2 -> runs P s (o :: os) s2.

End Exec.

(** ** Reachability and abstraction *)
Definition sees (c : cell) (x : nat) : Prop :=
  match c_dt c with
  | TObject => In (Some x) (map snd (c_kvs c))
  | TArray => In (Some x) (c_arr c)
  | _ => False
  end.
Inductive reach (h : nat -> cell) (l : nat) : nat -> Prop :=
| reach_refl : reach h l l
| reach_step x y : reach h l x -> sees (h x) y -> reach h l y.

(** [rep h p v]: the graph under pointer [p] unfolds to the tree [v]. *)
Inductive rep (h : nat -> cell) : ptr -> value -> Prop :=
| rep_nil : rep h None VNilP
| rep_obj l kvs : c_dt (h l) = TObject ->
    Forall2 (fun a b => fst a = fst b /\ rep h (snd a) (snd b)) (c_kvs (h l)) kvs ->
    rep h (Some l) (VObject (c_unesc (h l)) kvs)
| rep_arr l vs : c_dt (h l) = TArray -> Forall2 (rep h) (c_arr (h l)) vs ->
    rep h (Some l) (VArray vs)
| rep_str l : c_dt (h l) = TString -> rep h (Some l) (VString (c_str (h l)))
| rep_raw l : c_dt (h l) = TRaw -> rep h (Some l) (VRawString (c_str (h l)))
| rep_int l : c_dt (h l) = TInt -> rep h (Some l) (VInt (c_ext (h l)) (to_i64 (c_sv (h l))))
| rep_flt l : c_dt (h l) = TFloat -> rep h (Some l) (VFloat (c_sv (h l)))
| rep_dbl l : c_dt (h l) = TDouble -> rep h (Some l) (VDouble (c_sv (h l)))
| rep_dat l : c_dt (h l) = TDateTime -> rep h (Some l) (VDateTime (c_sv (h l)))
| rep_bin l : c_dt (h l) = TBinary -> rep h (Some l) (VBinary (c_ext (h l)) (c_bin (h l)))
| rep_exb l : c_dt (h l) = TExBinary -> rep h (Some l) (VExBinary (c_ext (h l)) (c_bin (h l)))
| rep_null l : c_dt (h l) = TNull -> rep h (Some l) VNull
| rep_true l : c_dt (h l) = TTrue -> rep h (Some l) VTrue
| rep_false l : c_dt (h l) = TFalse -> rep h (Some l) VFalse
| rep_nan l : c_dt (h l) = TNan -> rep h (Some l) VNan
| rep_inf l : c_dt (h l) = TInf -> rep h (Some l) VInf.
