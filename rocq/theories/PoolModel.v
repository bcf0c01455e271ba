(** * Model of the connection pool (/repo/dbutils/pooled_db.py)

    Every method of [PooledDB] works inside [with self._lock], so a method runs
    as one step; the steps of different threads interleave in any order.  Two
    exceptions to atomicity are modelled: [Condition.wait()] releases the lock in
    the middle of [connection()] (a waiting thread is resumed in a later step),
    and [unshare()] (L338-349) takes the lock twice, once itself and once in
    [cache()], so releasing the last share of a connection takes two steps.

    The driver is arbitrary, as in [SteadyModel]: its n-th call is answered by
    [drv n].  Simplified: the thread-safety checks (L219-234, L409-410, L502-503)
    are taken to pass; a handle is used by one thread at a time, and a client's
    batch of calls on a connection is one step. *)
From Coq Require Import List Arith NArith ZArith Bool Lia.
From Verif Require Import SteadyModel.
Import ListNotations.

(** The constructor arguments of [PooledDB]; pooled_db.py:180-186. *)
Record pargs := PArgs {
  a_mincached : nat; a_maxcached : nat; a_maxshared : nat; a_maxconnections : nat;
  a_blocking : bool; a_reset : bool; a_cfg : cfg }.

(** The attributes computed from them; pooled_db.py:237-267. *)
Record pcfg := PCfg {
  q_cfg : cfg; q_maxcached : nat; q_maxshared : nat; q_maxconn : nat;
  q_blocking : bool; q_reset : bool }.

(** [threadsafety > 1] (L255) is part of the arguments: [a_maxshared = 0] otherwise. *)
Definition make_cfg (a : pargs) : pcfg :=
  let mc := if Nat.eqb (a_maxcached a) 0 then 0 else Nat.max (a_maxcached a) (a_mincached a) in
  let mx := if Nat.eqb (a_maxconnections a) 0 then 0
            else Nat.max (Nat.max (a_maxconnections a) mc) (a_maxshared a) in
  PCfg (a_cfg a) mc (a_maxshared a) mx (a_blocking a) (a_reset a).

(** What a client holds: [PooledDedicatedDBConnection._con] (L398-442),
    [PooledSharedDBConnection._shared_con] (L488-534), or nothing after [close()]. *)
Inductive handle := HDed (con : nat) | HShared (obj : nat) | HNone.

(** Where a thread waits in [connection()]: L290-292, L306-311, L320-322. *)
Inductive kind := WShared | WTrans | WDed.

(** The pool: driver log, all [SteadyDBConnection] objects and all
    [SharedDBConnection] objects (connection and share count, L445-485) ever made,
    [_idle_cache], [_shared_cache], [_connections] (L268-270), the handles given
    out, connections between [unshare] and [cache], waiting and notified threads. *)
Record pool := Pool {
  p_log : list event;
  p_cons : list con;
  p_objs : list (nat * nat);
  p_idle : list nat;
  p_cache : list nat;
  p_count : Z;
  p_hand : list handle;
  p_rel : list nat;
  p_wait : list (nat * kind);
  p_woken : list (nat * kind) }.

(** What a request gives its caller: a handle, a blocked thread, the exception
    [TooManyConnections] (L389-393), an exception of the driver, or the IndexError
    of [pop(0)] on an empty list (L311). *)
Inductive reply := RGot (h : nat) | RBlocked | RTooMany | RError (e : exc) | RIndexError | RNone.

(** List assignment [l[i] = x] (Python built-in). *)
Fixpoint upd {A} (i : nat) (x : A) (l : list A) : list A :=
  match l, i with
  | [], _ => []
  | _ :: r, 0 => x :: r
  | y :: r, S j => y :: upd j x r
  end.

Section Pool.
Variable q : pcfg.
Variable drv : nat -> answer.

(** An unused connection object, before [SteadyDBConnection.__init__] (steady_db.py:141-186). *)
Definition no_con : con := Con 0 false true 0 0%N.
(** The connection object numbered [i]; pooled_db.py:402-413 ([self._con]). *)
Definition con_at (p : pool) (i : nat) : con := nth i (p_cons p) no_con.

(** Runs a connection method on connection object [i] of the pool; pooled_db.py:300, 329, 355, 359, 369, 376. *)
Definition on_con {A} (i : nat) (m : M A) (p : pool) : outcome A * pool :=
  let c := con_at p i in
  let (o, s) := m (St (p_log p) c (Cur (c_raw c) 0 true)) in
  (o, Pool (s_log s) (upd i (s_con s) (p_cons p)) (p_objs p) (p_idle p) (p_cache p) (p_count p)
           (p_hand p) (p_rel p) (p_wait p) (p_woken p)).

(** Assignments to [_idle_cache] (L296, L357, L367), [_shared_cache] (L305, L316, L345, L374),
    the shared objects (L482, L485), [_connections] (L302, L331, L360, L379), the handles
    (L302, L331, L421, L513), and the lock's waiters (L392); pooled_db.py. *)
Definition set_idle (l : list nat) (p : pool) : pool :=
  Pool (p_log p) (p_cons p) (p_objs p) l (p_cache p) (p_count p) (p_hand p) (p_rel p) (p_wait p) (p_woken p).
Definition set_cache (l : list nat) (p : pool) : pool :=
  Pool (p_log p) (p_cons p) (p_objs p) (p_idle p) l (p_count p) (p_hand p) (p_rel p) (p_wait p) (p_woken p).
Definition set_objs (l : list (nat * nat)) (p : pool) : pool :=
  Pool (p_log p) (p_cons p) l (p_idle p) (p_cache p) (p_count p) (p_hand p) (p_rel p) (p_wait p) (p_woken p).
Definition add_count (d : Z) (p : pool) : pool :=
  Pool (p_log p) (p_cons p) (p_objs p) (p_idle p) (p_cache p) (p_count p + d) (p_hand p) (p_rel p) (p_wait p) (p_woken p).
Definition set_hand (l : list handle) (p : pool) : pool :=
  Pool (p_log p) (p_cons p) (p_objs p) (p_idle p) (p_cache p) (p_count p) l (p_rel p) (p_wait p) (p_woken p).
Definition set_rel (l : list nat) (p : pool) : pool :=
  Pool (p_log p) (p_cons p) (p_objs p) (p_idle p) (p_cache p) (p_count p) (p_hand p) l (p_wait p) (p_woken p).
Definition set_threads (w k : list (nat * kind)) (p : pool) : pool :=
  Pool (p_log p) (p_cons p) (p_objs p) (p_idle p) (p_cache p) (p_count p) (p_hand p) (p_rel p) w k.

(** [self._lock.notify()]: wakes the thread that has waited longest; L316, L361. *)
Definition notify (p : pool) : pool :=
  match p_wait p with
  | [] => p
  | t :: r => set_threads r (p_woken p ++ [t]) p
  end.
(** [self._lock.notify_all()]; L380. *)
Definition notify_all (p : pool) : pool := set_threads [] (p_woken p ++ p_wait p) p.

(** [_wait_lock], pooled_db.py:389-393. *)
Definition wait_lock (t : nat) (k : kind) (p : pool) : reply * pool :=
  if q_blocking q then (RBlocked, set_threads (p_wait p ++ [(t, k)]) (p_woken p) p)
  else (RTooMany, p).

(** An idle connection (checked by ping) or a new one; pooled_db.py:295-300, 324-329. *)
Definition take_con (p : pool) : outcome nat * pool :=
  match p_idle p with
  | i :: r => (Ret i, snd (on_con i (ping_check (q_cfg q) drv 1) (set_idle r p)))
  | [] =>
    let (o, s) := connect (q_cfg q) drv (St (p_log p) no_con (Cur 0 0 true)) in
    match o with
    | Ret _ => (Ret (length (p_cons p)),
                Pool (s_log s) (p_cons p ++ [s_con s]) (p_objs p) (p_idle p) (p_cache p) (p_count p)
                     (p_hand p) (p_rel p) (p_wait p) (p_woken p))
    | Raise e => (Raise e,
                Pool (s_log s) (p_cons p) (p_objs p) (p_idle p) (p_cache p) (p_count p)
                     (p_hand p) (p_rel p) (p_wait p) (p_woken p))
    end
  end.

(** [self._maxconnections and self._connections >= self._maxconnections]; L290-291, L320-321. *)
Definition full (p : pool) : bool :=
  negb (Nat.eqb (q_maxconn q) 0) && Z.leb (Z.of_nat (q_maxconn q)) (p_count p).

(** Returns a handle to the caller; pooled_db.py:302, 317, 331-332. *)
Definition give (h : handle) (p : pool) : reply * pool :=
  (RGot (length (p_hand p)), set_hand (p_hand p ++ [h]) p).

(** [connection(shareable=False)], pooled_db.py:318-332. *)
Definition request_ded (t : nat) (p : pool) : reply * pool :=
  if full p then wait_lock t WDed p
  else match take_con p with
       | (Raise e, p1) => (RError e, p1)
       | (Ret i, p1) => give (HDed i) (add_count 1 p1)
       end.

(** Attributes of shared object [o]; pooled_db.py:445-454. *)
Definition obj_at (p : pool) (o : nat) : nat * nat := nth o (p_objs p) (0, 0).
Definition obj_trans (p : pool) (o : nat) : bool := c_trans (con_at p (fst (obj_at p o))).

(** [SharedDBConnection.__lt__] and [__eq__], pooled_db.py:456-459, 466-468. *)
Definition obj_lt (p : pool) (a b : nat) : bool :=
  if Bool.eqb (obj_trans p a) (obj_trans p b)
  then Nat.ltb (snd (obj_at p a)) (snd (obj_at p b)) else negb (obj_trans p a).
Definition obj_eq (p : pool) (a b : nat) : bool :=
  Bool.eqb (obj_trans p a) (obj_trans p b) && Nat.eqb (snd (obj_at p a)) (snd (obj_at p b)).

(** [list.sort()]: stable; pooled_db.py:304, 310.  Simplified: insertion sort in
    place of timsort, which gives the same list since both are stable. *)
Fixpoint insert_obj (p : pool) (x : nat) (l : list nat) : list nat :=
  match l with
  | [] => [x]
  | y :: r => if obj_lt p y x then y :: insert_obj p x r else x :: l
  end.
Fixpoint sort_objs (p : pool) (l : list nat) : list nat :=
  match l with [] => [] | x :: r => insert_obj p x (sort_objs p r) end.

(** The loop looking for a shared connection outside a transaction, from the
    sort on; pooled_db.py:304-317 and, after a wait, 310-317. *)
Definition share_loop (t : nat) (p : pool) : reply * pool :=
  match sort_objs p (p_cache p) with
  | [] => (RIndexError, p)
  | o :: r =>
    if obj_trans p o then wait_lock t WTrans (set_cache (o :: r) p)
    else
      let p1 := snd (on_con (fst (obj_at p o)) (ping_check (q_cfg q) drv 1) (set_cache r p)) in
      let p2 := set_objs (upd o (fst (obj_at p1 o), S (snd (obj_at p1 o))) (p_objs p1)) p1 in
      give (HShared o) (notify (set_cache (p_cache p2 ++ [o]) p2))
  end.

(** [connection(shareable=True)] in a pool with shared connections, pooled_db.py:288-317. *)
Definition request_shared (t : nat) (p : pool) : reply * pool :=
  if Nat.eqb (length (p_cache p)) 0 && full p then wait_lock t WShared p
  else if Nat.ltb (length (p_cache p)) (q_maxshared q) then
    match take_con p with
    | (Raise e, p1) => (RError e, p1)
    | (Ret i, p1) =>
      let o := length (p_objs p1) in
      let p2 := add_count 1 (set_objs (p_objs p1 ++ [(i, 1)]) p1) in
      give (HShared o) (notify (set_cache (p_cache p2 ++ [o]) p2))
    end
  else share_loop t p.

(** [connection(shareable)], pooled_db.py:282-332. *)
Definition request (t : nat) (shareable : bool) (p : pool) : reply * pool :=
  if shareable && negb (Nat.eqb (q_maxshared q) 0) then request_shared t p else request_ded t p.

(** [cache], pooled_db.py:351-361. *)
Definition cache_con (i : nat) (p : pool) : pool :=
  let p1 :=
    if Nat.eqb (q_maxcached q) 0 || Nat.ltb (length (p_idle p)) (q_maxcached q)
    then let p0 := snd (on_con i (reset (q_cfg q) drv (q_reset q)) p) in set_idle (p_idle p0 ++ [i]) p0
    else snd (on_con i (close (q_cfg q) drv) p) in
  notify (add_count (-1) p1).

(** [list.remove], pooled_db.py:345: drops the first element that is the object or equal to it. *)
Fixpoint remove_obj (p : pool) (o : nat) (l : list nat) : list nat :=
  match l with
  | [] => []
  | x :: r => if Nat.eqb x o || obj_eq p x o then r else x :: remove_obj p o r
  end.

(** First step of [unshare], pooled_db.py:338-347; the call of [cache] (L349) is a
    step of its own ([OpRelease]). *)
Definition unshare (o : nat) (p : pool) : pool :=
  let n := Nat.pred (snd (obj_at p o)) in
  let p1 := set_objs (upd o (fst (obj_at p o), n) (p_objs p)) p in
  if Nat.eqb n 0
  then set_rel (p_rel p1 ++ [fst (obj_at p1 o)]) (set_cache (remove_obj p1 o (p_cache p1)) p1)
  else p1.

(** [close()] of a handle, pooled_db.py:415-421 and 507-513. *)
Definition close_handle (h : nat) (p : pool) : pool :=
  match nth h (p_hand p) HNone with
  | HNone => p
  | HDed i => set_hand (upd h HNone (p_hand (cache_con i p))) (cache_con i p)
  | HShared o => set_hand (upd h HNone (p_hand (unshare o p))) (unshare o p)
  end.

(** Closes the connections of the list; pooled_db.py:366-371. *)
Fixpoint close_all (l : list nat) (p : pool) : pool :=
  match l with
  | [] => p
  | i :: r => close_all r (snd (on_con i (close (q_cfg q) drv) p))
  end.

(** [PooledDB.close], pooled_db.py:363-380. *)
Definition close_pool (p : pool) : pool :=
  let p1 := set_idle [] (close_all (p_idle p) p) in
  let p2 := if Nat.eqb (q_maxshared q) 0 then p1
            else add_count (- Z.of_nat (length (p_cache p1)))
                   (set_cache [] (close_all (map (fun o => fst (obj_at p1 o)) (p_cache p1)) p1)) in
  notify_all p2.

(** Removes the first element equal to [i]: the thread leaves [unshare] (pooled_db.py:349). *)
Fixpoint remove1 (i : nat) (l : list nat) : list nat :=
  match l with [] => [] | x :: r => if Nat.eqb x i then r else x :: remove1 i r end.

(** The connection behind a handle ([__getattr__], L423-427, L515-519). *)
Definition con_of (p : pool) (h : handle) : option nat :=
  match h with HNone => None | HDed i => Some i | HShared o => Some (fst (obj_at p o)) end.

(** One step of some thread: the public methods at pooled_db.py:282, 338-361, 363, 415, 423, 507, 515. *)
Inductive pop :=
| OpRequest (t : nat) (shareable : bool)   (* connection() *)
| OpResume (t : nat)                       (* a notified thread gets the lock again *)
| OpClose (h : nat)                        (* close() of a handle *)
| OpRelease (i : nat)                      (* unshare() reaches cache() *)
| OpUse (h : nat) (l : list op)            (* a client uses its connection *)
| OpClosePool.                             (* PooledDB.close() *)

(** The thread leaves the list of notified threads ([wait()] returns, pooled_db.py:393). *)
Fixpoint unwake (t : nat) (l : list (nat * kind)) : option (kind * list (nat * kind)) :=
  match l with
  | [] => None
  | (x, k) :: r => if Nat.eqb x t then Some (k, r)
                   else match unwake t r with None => None | Some (k', r') => Some (k', (x, k) :: r') end
  end.

(** The effect of a step; the methods are those cited at the definitions above. *)
Definition step (p : pool) (o : pop) : reply * pool :=
  match o with
  | OpRequest t sh => request t sh p
  | OpResume t =>
    match unwake t (p_woken p) with
    | None => (RNone, p)
    | Some (k, r) =>
      let p1 := set_threads (p_wait p) r p in
      match k with
      | WDed => request_ded t p1
      | WShared => request_shared t p1
      | WTrans => share_loop t p1
      end
    end
  | OpClose h => (RNone, close_handle h p)
  | OpRelease i =>
    if existsb (Nat.eqb i) (p_rel p) then (RNone, cache_con i (set_rel (remove1 i (p_rel p)) p)) else (RNone, p)
  | OpUse h l =>
    match con_of p (nth h (p_hand p) HNone) with
    | None => (RNone, p)
    | Some i => (RNone, snd (on_con i (do_ops (q_cfg q) drv l) p))
    end
  | OpClosePool => (RNone, close_pool p)
  end.

(** An interleaving of steps (not in the Python code). *)
Definition run (p : pool) (l : list pop) : pool := fold_left (fun p o => snd (step p o)) l p.

(** The first [mincached] connections of the constructor, pooled_db.py:272:
    a list of handles, or the reply that stopped it. *)
Fixpoint open_first (n : nat) (p : pool) : reply * pool :=
  match n with
  | 0 => (RNone, p)
  | S k => match request_ded 0 p with
           | (RGot _, p1) => open_first k p1
           | r => r
           end
  end.

(** [while idle: idle.pop().close()], pooled_db.py:273-274: last one first. *)
Fixpoint close_first (n : nat) (p : pool) : pool :=
  match n with 0 => p | S k => close_first k (close_handle k p) end.

(** The attributes before the first connection, pooled_db.py:268-271. *)
Definition empty_pool : pool := Pool [] [] [] [] [] 0 [] [] [] [].

(** [PooledDB.__init__], pooled_db.py:180-274: [RNone] and the pool, or the reply
    that kept it from being made. *)
Definition init (n : nat) : reply * pool :=
  match open_first n empty_pool with
  | (RNone, p) => (RNone, close_first n p)
  | r => r
  end.

End Pool.
