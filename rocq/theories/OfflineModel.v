(** Offline decryption: scheduler/utils/decrypt_support.py.

    Simplifications: np.array(l) is the list l (numpy may convert numbers and texts of one list to a
    common type); a worker process does not die; the Spark context is modelled by the way in which it
    slices the data, or by its failure; decrypt_file (L67-82) is not modelled, it calls df.columns,
    which is no function, and always raises TypeError. *)
From Coq Require Import String Ascii List NArith ZArith Bool.
From Verif Require Import Base CryptoModel JsonModel RewriteModel.
Import ListNotations.

(** ** A worker pool: multiprocessing.Pool as PoolSupport.pool_run uses it, L17-26. *)
Section Pool.
Context {I V : Type}.

(** The tasks not yet submitted (L21), the number of those that are, the task queue, what each worker
    is busy with, the result objects (L23). *)
Record pstate := mkP {
  p_todo : list I; p_next : nat; p_queue : list (nat * I); p_busy : list (option (nat * I));
  p_done : nat -> option (res V) }.

Definition set_done (d : nat -> option (res V)) (j : nat) (r : res V) : nat -> option (res V) :=
  fun i => if Nat.eqb i j then Some r else d i.
Fixpoint set_nth {A} (l : list A) (i : nat) (x : A) : list A :=
  match l, i with
  | [], _ => []
  | _ :: r, O => x :: r
  | y :: r, S i' => y :: set_nth r i' x
  end.

(** One step of anyone: the main process submits the next task with apply_async (L22), which puts it in
    the queue or, if the function cannot be pickled, records the failure as its result; an idle worker
    takes the first task of the queue; a worker finishes. *)
Inductive pstep (pickles : bool) (f : I -> res V) : pstate -> pstate -> Prop :=
| step_submit x t n q b d : pickles = true ->
    pstep pickles f (mkP (x :: t) n q b d) (mkP t (S n) (q ++ [(n, x)]) b d)
| step_refuse x t n q b d : pickles = false ->
    pstep pickles f (mkP (x :: t) n q b d) (mkP t (S n) q b (set_done d n (Err AttributeError)))
| step_take t n j x q b w d : nth_error b w = Some None ->
    pstep pickles f (mkP t n ((j, x) :: q) b d) (mkP t n q (set_nth b w (Some (j, x))) d)
| step_finish t n q b w j x d : nth_error b w = Some (Some (j, x)) ->
    pstep pickles f (mkP t n q b d) (mkP t n q (set_nth b w None) (set_done d j (f x))).
Inductive psteps (pickles : bool) (f : I -> res V) : nat -> pstate -> pstate -> Prop :=
| steps_nil s : psteps pickles f 0 s s
| steps_cons k s s' s'' : pstep pickles f s s' -> psteps pickles f k s' s'' -> psteps pickles f (S k) s s''.

Definition p_init (data : list I) (workers : nat) : pstate := mkP data 0 [] (repeat None workers) (fun _ => None).
(** When close and join (L24-25) have returned: nothing left, no worker busy. *)
Definition p_final (s : pstate) : Prop := p_todo s = [] /\ p_queue s = [] /\ Forall (eq None) (p_busy s).

(** [[i.get() for i in total_res]], L26. *)
Definition gets (s : pstate) (n : nat) : res (list V) :=
  mapM (fun i => match p_done s i with Some r => r | None => Err OutOfFuel end) (seq 0 n).

(** pool_run, L17-26: Pool(processes=0) raises ValueError. *)
Inductive pool_run (pickles : bool) (f : I -> res V) (data : list I) : nat -> res (list V) -> Prop :=
| run_none : pool_run pickles f data 0 (Err ValueError)
| run_some w k s : psteps pickles f k (p_init data (S w)) s -> p_final s ->
    pool_run pickles f data (S w) (gets s (length data)).
End Pool.
Arguments pstate : clear implicits.

(** ** OfflineDecryption *)
(** The argument [key]: what get_feature_key, L111-118, builds from a column and a state. *)
Definition okey : Type := colmeta * pystr.
Definition key_decrypt (E : env) (k : okey) (v : sqlv) : res sqlv := decrypt_state E (fst k) (snd k) v.
(** [encrypt.decode(key.decrypt(i), data_type)]. *)
Definition cell (E : env) (k : okey) (ty : pystr) (v : sqlv) : res sqlv := do x <- key_decrypt E k v; decode E x ty.

(** single_decrypt, L107-109. *)
Definition single_decrypt (E : env) (data : list sqlv) (k : okey) (ty : pystr) : res (list sqlv) :=
  mapM (cell E k ty) data.

(** CPU_NUM, L12. *)
Definition CPU_NUM : nat := 20.
(** pool_decrypt, L101-105: the function is local to pool_decrypt and cannot be pickled. *)
Definition pool_decrypt (E : env) (data : list sqlv) (k : okey) (ty : pystr) (r : res (list sqlv)) : Prop :=
  pool_run false (cell E k ty) data CPU_NUM r.

(** SparkSupport.cal_fun_support_spark, L44-62, with its defaults: the slices in which parallelize has
    cut the data, or a failure of Spark. *)
Definition spark (map_fun : list sqlv -> res (list sqlv)) (slices : res (list (list sqlv))) : res (list sqlv) :=
  do l <- slices; do parts <- mapM map_fun l; Ok (concat parts).
(** distributed_decrypt, L84-99; [conf]: SPARK_CONFIG is set. *)
Definition distributed_decrypt (E : env) (conf : bool) (slices : res (list (list sqlv))) (data : list sqlv)
    (k : okey) (ty : pystr) : res (list sqlv) :=
  if conf then
    match spark (fun x => mapM (cell E k ty) x) slices with
    | Ok r => Ok r
    | Err _ => mapM (key_decrypt E k) data
    end
  else mapM (key_decrypt E k) data.
