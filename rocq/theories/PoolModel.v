(** The pool of caches under any number of goroutines (cache.go).  A step is one memory access or one
    call of [sync.Pool]; steps of the goroutines interleave freely.
    Only what decides who owns a cache is modelled: [ownercache] of the values, the cells of a cache,
    [len(Value)], [fisroot] and the pool.  A goroutine works on the root values it holds; values inside
    the trees are not tracked (they have no cache of their own, or were made by [ANil]). *)
From Verif Require Import Base HeapModel.

(** Where a goroutine is inside [getCache]/[getValue] (cache.go:16-53) or [FreeValue] (cache.go:64-75). *)
Inductive pcs :=
| Idle
| Got (k : nat)                        (* after ValueCachePool.Get, cache.go:42-49 *)
| Marked (k : nat)                     (* after c.fisroot = true, cache.go:50 *)
| Vend (k l : nat)                     (* after result.Reset(t), c.fisroot = false, cache.go:26-34 *)
| Freeing (l : nat)                    (* after v.Clear(), cache.go:68 *)
| Taken (l : nat) (c : option nat)     (* after c := v.ownercache, cache.go:69 *)
| Loose (k : nat)                      (* after v.ownercache = nil, cache.go:70 *)
| Emptied (k : nat).                   (* after c.Reset(true), cache.go:72 *)
Record thread := mkT { t_held : list nat; t_pc : pcs }.
Record mach := mkM {
  m_own : nat -> option nat;           (* ownercache of a cell *)
  m_slots : nat -> list nat;           (* cells of the array of c.Value *)
  m_len : nat -> nat;                  (* len(c.Value) *)
  m_root : nat -> bool;                (* fisroot *)
  m_pool : list nat;
  m_cell : nat; m_cache : nat;         (* next unused names *)
  m_ths : list thread }.

Fixpoint put_nth {A} (n : nat) (x : A) (l : list A) : list A :=
  match l, n with
  | [], _ => []
  | _ :: r, O => x :: r
  | y :: r, S n' => y :: put_nth n' x r
  end.
Definition idle : thread := mkT [] Idle.
Definition th (m : mach) (t : nat) : thread := nth t (m_ths m) idle.
Definition set_th (m : mach) (t : nat) (x : thread) : mach :=
  mkM (m_own m) (m_slots m) (m_len m) (m_root m) (m_pool m) (m_cell m) (m_cache m) (put_nth t x (m_ths m)).
Definition go (m : mach) (t : nat) (p : pcs) : mach := set_th m t (mkT (t_held (th m t)) p).
Definition set_own (m : mach) (l : nat) (o : option nat) : mach :=
  mkM (upd (m_own m) l o) (m_slots m) (m_len m) (m_root m) (m_pool m) (m_cell m) (m_cache m) (m_ths m).
Definition set_len (m : mach) (k n : nat) : mach :=
  mkM (m_own m) (m_slots m) (upd (m_len m) k n) (m_root m) (m_pool m) (m_cell m) (m_cache m) (m_ths m).
Definition set_root (m : mach) (k : nat) (b : bool) : mach :=
  mkM (m_own m) (m_slots m) (m_len m) (upd (m_root m) k b) (m_pool m) (m_cell m) (m_cache m) (m_ths m).
Definition set_pool (m : mach) (p : list nat) : mach :=
  mkM (m_own m) (m_slots m) (m_len m) (m_root m) p (m_cell m) (m_cache m) (m_ths m).
(** A new cache with 8 cells. *)
Definition new_cache (m : mach) (r : bool) : mach :=
  mkM (m_own m) (upd (m_slots m) (m_cache m) (seq (m_cell m) 8)) (upd (m_len m) (m_cache m) 0%nat)
      (upd (m_root m) (m_cache m) r) (m_pool m) (m_cell m + 8) (S (m_cache m)) (m_ths m).
(** [append(c.Value, DxValue{})] beyond the capacity: the cells move to a new array of [n] cells. *)
Definition grow (m : mach) (k n : nat) : mach :=
  mkM (fun l => if (m_cell m <=? l)%nat && (l <? m_cell m + m_len m k)%nat
                then m_own m (nth (l - m_cell m) (m_slots m k) 0%nat) else m_own m l)
      (upd (m_slots m) k (seq (m_cell m) n)) (m_len m) (m_root m) (m_pool m) (m_cell m + n) (m_cache m) (m_ths m).

(** The steps; [None]: not possible now.  [keep] marks misuse: the goroutine frees a value, or hands it
    to another goroutine, and keeps using it. *)
Inductive act :=
| AGet (t : nat) (choice : option nat)         (* ValueCachePool.Get: a pooled cache, or a new one *)
| AMark (t : nat) | AVend (t : nat) | AOwn (t : nat)
| ANil (t : nat)                               (* getValue on a nil cache, cache.go:17-25 *)
| AChild (t i extra : nat)                     (* getValue on the cache of a held value *)
| AClear (t i : nat)                           (* v.Clear() *)
| AFree (t i : nat) (keep : bool) | ATake (t : nat) | AForget (t : nat) | AEmpty (t : nat) | APut (t : nat)
| AGive (t i u : nat) (keep : bool) | ADrop (t i : nat)
| AGc (n : nat).                               (* the pool drops a cache *)

Definition clear_own (m : mach) (l : nat) : mach := match m_own m l with Some k => set_len m k 1 | None => m end.
Definition exec (m : mach) (a : act) : option mach :=
  match a with
  | AGet t choice =>
      match t_pc (th m t) with
      | Idle =>
          if (t <? length (m_ths m))%nat then
            match choice with
            | Some n => match nth_error (m_pool m) n with
                        | Some k => Some (go (set_pool m (remove_at n (m_pool m))) t (Got k))
                        | None => None
                        end
            | None => Some (go (new_cache m true) t (Got (m_cache m)))
            end
          else None
      | _ => None
      end
  | AMark t => match t_pc (th m t) with Got k => Some (go (set_root m k true) t (Marked k)) | _ => None end
  | AVend t =>
      match t_pc (th m t) with
      | Marked k =>
          let m1 := if (m_len m k <? length (m_slots m k))%nat then m else grow m k (S (m_len m k)) in
          let l := nth (m_len m k) (m_slots m1 k) 0%nat in
          Some (go (set_root (set_len m1 k (S (m_len m k))) k false) t (Vend k l))
      | _ => None
      end
  | AOwn t =>
      match t_pc (th m t) with
      | Vend k l => Some (set_th (set_own m l (Some k)) t (mkT (l :: t_held (th m t)) Idle))
      | _ => None
      end
  | ANil t =>
      match t_pc (th m t) with
      | Idle => if (t <? length (m_ths m))%nat then
                  let m1 := set_len (set_own (new_cache m false) (m_cell m) (Some (m_cache m))) (m_cache m) 1 in
                  Some (set_th m1 t (mkT (m_cell m :: t_held (th m t)) Idle))
                else None
      | _ => None
      end
  | AChild t i extra =>
      match t_pc (th m t), nth_error (t_held (th m t)) i with
      | Idle, Some l =>
          match m_own m l with
          | Some k =>
              let m1 := if (m_len m k <? length (m_slots m k))%nat then m else grow m k (S (m_len m k + extra)) in
              let c := nth (m_len m k) (m_slots m1 k) 0%nat in
              let m2 := set_len m1 k (S (m_len m k)) in
              Some (if m_root m k then set_root (set_own m2 c (Some k)) k false else m2)
          | None => None
          end
      | _, _ => None
      end
  | AClear t i =>
      match t_pc (th m t), nth_error (t_held (th m t)) i with
      | Idle, Some l => Some (clear_own m l)
      | _, _ => None
      end
  | AFree t i keep =>
      match t_pc (th m t), nth_error (t_held (th m t)) i with
      | Idle, Some l =>
          Some (set_th (clear_own m l) t (mkT (if keep then t_held (th m t) else remove_at i (t_held (th m t))) (Freeing l)))
      | _, _ => None
      end
  | ATake t => match t_pc (th m t) with Freeing l => Some (go m t (Taken l (m_own m l))) | _ => None end
  | AForget t =>
      match t_pc (th m t) with
      | Taken l c => Some (go (set_own m l None) t (match c with Some k => Loose k | None => Idle end))
      | _ => None
      end
  | AEmpty t => match t_pc (th m t) with Loose k => Some (go (set_len m k 0) t (Emptied k)) | _ => None end
  | APut t => match t_pc (th m t) with Emptied k => Some (go (set_pool m (k :: m_pool m)) t Idle) | _ => None end
  | AGive t i u keep =>
      match t_pc (th m t), t_pc (th m u), nth_error (t_held (th m t)) i with
      | Idle, Idle, Some l =>
          if negb (t =? u)%nat && (u <? length (m_ths m))%nat then
            let m1 := set_th m t (mkT (if keep then t_held (th m t) else remove_at i (t_held (th m t))) Idle) in
            Some (set_th m1 u (mkT (l :: t_held (th m u)) Idle))
          else None
      | _, _, _ => None
      end
  | ADrop t i =>
      match t_pc (th m t), nth_error (t_held (th m t)) i with
      | Idle, Some _ => Some (set_th m t (mkT (remove_at i (t_held (th m t))) Idle))
      | _, _ => None
      end
  | AGc n => Some (set_pool m (remove_at n (m_pool m)))
  end.
Fixpoint exec_all (m : mach) (l : list act) : option mach :=
  match l with [] => Some m | a :: r => match exec m a with Some m' => exec_all m' r | None => None end end.
(** [n] goroutines, nothing allocated. *)
Definition mach0 (n : nat) : mach :=
  mkM (fun _ => None) (fun _ => []) (fun _ => 0%nat) (fun _ => false) [] 0 0 (repeat idle n).
