(** * Threads: prediction under a lock, growth of trees by workers

    joblib runs one job per tree, on at most [n_jobs] threads that share the memory of the
    process (forest.py:488-499, 1250-1263, 1316-1330, 1646-1655, 1664-1676, 430-465). *)

Require Import String Bool List Arith NArith ZArith.
Require Import Verif.Base Verif.Num Verif.M_Bitarray Verif.M_Utils Verif.M_Context Verif.M_Node Verif.M_Split Verif.M_Tree Verif.M_Grow Verif.M_Object Verif.M_Forest.
Import ListNotations.
Local Open Scope list_scope.
Local Open Scope nat_scope.

(** ** Predictions *)

(** The jobs of predictions: a local computation (the prediction of one tree), then updates of
    a shared array inside of [with lock:] (forest.py:145-171). An update of one cell is a read
    followed by a write, with any action of the other threads in between. Every job is given
    its own thread: with fewer threads than jobs there are fewer interleavings. *)
Section Machine.
Context {M L : Type}.

Record op : Type := mkOp { op_load : M -> res L; op_store : L -> M -> res M }.

Inductive pc : Type :=
| Start                            (* not begun *)
| Ready (ops : list op)            (* the prediction is known; next: take the lock *)
| Inside (ops : list op)           (* holds the lock; updates still to do *)
| Loaded (v : L) (o : op) (ops : list op) (* has read a cell, is about to write it *)
| Done
| Failed (e : err).

Record mstate : Type := mkM { ms_mem : M; ms_holder : option nat; ms_pcs : list pc }.

(** One step of thread [t]; None when it is blocked, finished, or not a thread. [locked] is
    false for a variant of the program without the lock, used as a contrast. *)
Definition tstep (locked : bool) (jobs : list (res (list op))) (st : mstate) (t : nat) : option mstate :=
  let goto (m : M) (h : option nat) (p : pc) := Some (mkM m h (upd (ms_pcs st) t p)) in
  let free := if locked then None else ms_holder st in
  match nth_error (ms_pcs st) t, nth_error jobs t with
  | Some Start, Some (Ok ops) => goto (ms_mem st) (ms_holder st) (Ready ops)
  | Some Start, Some (Err e) => goto (ms_mem st) (ms_holder st) (Failed e)
  | Some (Ready ops), _ =>
      if locked then match ms_holder st with
                     | None => goto (ms_mem st) (Some t) (Inside ops)
                     | Some _ => None
                     end
      else goto (ms_mem st) (ms_holder st) (Inside ops)
  | Some (Inside []), _ => goto (ms_mem st) free Done
  | Some (Inside (o :: ops)), _ =>
      match op_load o (ms_mem st) with
      | Ok v => goto (ms_mem st) (ms_holder st) (Loaded v o ops)
      | Err e => goto (ms_mem st) free (Failed e)
      end
  | Some (Loaded v o ops), _ =>
      match op_store o v (ms_mem st) with
      | Ok m => goto m (ms_holder st) (Inside ops)
      | Err e => goto (ms_mem st) free (Failed e)
      end
  | _, _ => None
  end.

(** A schedule says which thread moves at each step. *)
Fixpoint run (locked : bool) (jobs : list (res (list op))) (sched : list nat) (st : mstate) : option mstate :=
  match sched with
  | [] => Some st
  | t :: rest => match tstep locked jobs st t with None => None | Some st' => run locked jobs rest st' end
  end.

Definition initial (m : M) (jobs : list (res (list op))) : mstate := mkM m None (map (fun _ => Start) jobs).

(** joblib returns when every job has returned. *)
Definition finished (st : mstate) : bool :=
  forallb (fun p => match p with Done => true | _ => false end) (ms_pcs st).

End Machine.
Arguments op M L : clear implicits.
Arguments mstate M L : clear implicits.
Arguments pc M L : clear implicits.

Section Jobs.
Context {A : arith}.
Notation T := (num A).

(** [out[i, k] += v]. *)
Definition add_cell (i k : nat) (v : T) : op (list (list T)) T :=
  mkOp (fun m => let* row := get m i in get row k)
       (fun x m => let* row := get m i in let* row' := set row k (aadd x v) in set m i row').

(** forest.py:148-151. The shapes are compared before any update. *)
Fixpoint cells (i k : nat) (p : list T) : list (op (list (list T)) T) :=
  match p with [] => [] | v :: p' => add_cell i k v :: cells i (S k) p' end.
Definition row_ops (n_est : nat) (ovr : bool) (t K i : nat) (p : list T) : res (list (op (list (list T)) T)) :=
  if ovr then let* v := get p 1 in
              if t / n_est <? K then Ok [add_cell i (t / n_est) v] else Err OOB
  else if length p =? K then Ok (cells i 0 p) else Err ValueErr.
Fixpoint rows_ops (n_est : nat) (ovr : bool) (t K i : nat) (preds : list (list T)) : res (list (op (list (list T)) T)) :=
  match preds with
  | [] => Ok []
  | p :: preds' => let* a := row_ops n_est ovr t K i p in let* b := rows_ops n_est ovr t K (S i) preds' in Ok (a ++ b)
  end.
Definition proba_job (n_est : nat) (ovr : bool) (K : nat) (fb : fba) (t : nat) (tr : tobj A (list T) nat)
  : res (list (op (list (list T)) T)) :=
  let* preds := obj_predict mix_vec tr fb in
  if length preds =? fb_n_samples fb then rows_ops n_est ovr t K 0 preds else Err ValueErr.
Definition indexed {X} (l : list X) : list (nat * X) := combine (seq 0 (length l)) l.
Definition proba_jobs (n_est : nat) (ovr : bool) (K : nat) (fb : fba) (ts : list (tobj A (list T) nat)) :=
  map (fun '(t, tr) => proba_job n_est ovr K fb t tr) (indexed ts).

(** [out[i] += v], forest.py:149 for regressors. *)
Definition add_entry (i : nat) (v : T) : op (list T) T :=
  mkOp (fun m => get m i) (fun x m => set m i (aadd x v)).
Fixpoint entries (i : nat) (p : list T) : list (op (list T) T) :=
  match p with [] => [] | v :: p' => add_entry i v :: entries (S i) p' end.
Definition reg_job (fb : fba) (tr : tobj A T T) : res (list (op (list T) T)) :=
  let* preds := obj_predict mix_num tr fb in
  if length preds =? fb_n_samples fb then Ok (entries 0 preds) else Err ValueErr.

(** [out[t] = v], forest.py:154-171: nothing is read; one write per cell. *)
Definition write_cell {V} (t i : nat) (v : V) : op (list (list V)) unit :=
  mkOp (fun _ => Ok tt)
       (fun _ m => let* row := get m t in let* row' := set row i v in set m t row').
Fixpoint writes {V} (t i : nat) (p : list V) : list (op (list (list V)) unit) :=
  match p with [] => [] | v :: p' => write_cell t i v :: writes t (S i) p' end.
Definition write_job {V} (n : nat) (t : nat) (p : res (list V)) : res (list (op (list (list V)) unit)) :=
  let* vs := p in if length vs =? n then Ok (writes t 0 vs) else Err ValueErr.
Definition write_jobs {V} (n : nat) (ps : list (res (list V))) :=
  map (fun '(t, p) => write_job n t p) (indexed ps).

(** ** Whole predictions, for one schedule of the threads *)
Section Calls.
Context {L D : Type} {EC : encoding D}.

(** forest.py:1226-1277 for one schedule; None when the schedule is not one that completes. *)
Definition predict_proba_run (small : T -> bool) (sched : list nat) (o : clf_forest A L EC) (X : D)
  : option (list (list T)) :=
  match predict_helper o X with
  | Err _ => None
  | Ok (fb, ts) =>
      if negb (fo_fitted o) then None else
      let K := length (fo_classes o) in
      let n_est := Z.to_nat (fo_n_estimators o) in
      let ovr := match fo_multiclass o with Ovr => true | Multinomial => false end in
      let jobs := proba_jobs n_est ovr K fb ts in
      match run true jobs sched (initial (repeat (repeat a0 K) (fb_n_samples fb)) jobs) with
      | Some st => if finished st then
                     Some (match fo_multiclass o with
                           | Ovr => map (normalise_ovr small K) (ms_mem st)
                           | Multinomial => map (map (fun x => adiv x (aofnat (length ts)))) (ms_mem st)
                           end)
                   else None
      | None => None
      end
  end.

(** forest.py:1205-1224. *)
Definition predict_class_run (small : T -> bool) (sched : list nat) (o : clf_forest A L EC) (X : D) : option (list L) :=
  match predict_proba_run small sched o X with
  | None => None
  | Some probas => match take_classes (fo_classes o) probas with Ok r => Some r | Err _ => None end
  end.

(** forest.py:1628-1657. *)
Definition predict_reg_run (sched : list nat) (o : reg_forest A L EC) (X : D) : option (list T) :=
  match predict_helper o X with
  | Err _ => None
  | Ok (fb, ts) =>
      let jobs := map (reg_job fb) ts in
      match run true jobs sched (initial (repeat a0 (fb_n_samples fb)) jobs) with
      | Some st => if finished st then Some (map (fun x => adiv x (aofnat (length ts))) (ms_mem st)) else None
      | None => None
      end
  end.

(** forest.py:472-501, 1279-1331 and 1659-1677: [one] is the computation of one tree;
    [junk] is the content of the fresh array. *)
Definition per_tree_run {P Y V} (one : tobj A P Y -> fba -> res (list V)) (sched : list nat)
  (junk : list (list V)) (o : fobj A L EC P Y) (X : D) : option (list (list V)) :=
  match predict_helper o X with
  | Err _ => None
  | Ok (fb, ts) =>
      let jobs := write_jobs (fb_n_samples fb) (map (fun t => one t fb) ts) in
      match run true jobs sched (initial junk jobs) with
      | Some st => if finished st then Some (ms_mem st) else None
      | None => None
      end
  end.
End Calls.
End Jobs.

(** ** Fit *)

(** Worker threads take the trees one after the other. numba has one random generator per
    thread; the constructor of a tree seeds the one of the thread it runs in (_tree.py:160
    and 230), and whatever a worker did before is left in its generator. A job is a program
    over the generator of its thread. *)
Section Workers.
Context {G X : Type}.

Inductive prog : Type :=
| Return (r : X)
| Tick (next : G -> prog) (gen : G -> G).

Inductive wstate : Type :=
| Idle
| Busy (job : nat) (p : prog).

Record fstate : Type := mkFs {
  fs_next : nat;                (* the next tree to start *)
  fs_gens : list G;             (* the generator of each thread *)
  fs_workers : list wstate;
  fs_results : list (option X)
}.

(** One step of worker [w]: take a job, run one step of it, or return its result. *)
Definition wstep (jobs : list prog) (st : fstate) (w : nat) : option fstate :=
  match nth_error (fs_workers st) w with
  | Some Idle =>
      match nth_error jobs (fs_next st) with
      | Some p => Some (mkFs (S (fs_next st)) (fs_gens st) (upd (fs_workers st) w (Busy (fs_next st) p)) (fs_results st))
      | None => None
      end
  | Some (Busy j (Return r)) =>
      Some (mkFs (fs_next st) (fs_gens st) (upd (fs_workers st) w Idle) (upd (fs_results st) j (Some r)))
  | Some (Busy j (Tick next gen)) =>
      match nth_error (fs_gens st) w with
      | Some g => Some (mkFs (fs_next st) (upd (fs_gens st) w (gen g)) (upd (fs_workers st) w (Busy j (next g))) (fs_results st))
      | None => None
      end
  | None => None
  end.

Fixpoint wrun (jobs : list prog) (sched : list nat) (st : fstate) : option fstate :=
  match sched with
  | [] => Some st
  | w :: rest => match wstep jobs st w with None => None | Some st' => wrun jobs rest st' end
  end.

(** [gens] is what earlier computations left in the generators of the threads. *)
Definition winitial (jobs : list prog) (gens : list G) : fstate :=
  mkFs 0 gens (map (fun _ => Idle) gens) (map (fun _ => None) jobs).

(** The results, when all jobs have returned. *)
Fixpoint all_some (l : list (option X)) : option (list X) :=
  match l with
  | [] => Some []
  | None :: _ => None
  | Some x :: t => match all_some t with None => None | Some r => Some (x :: r) end
  end.

(** The program on its own. *)
Fixpoint exec (p : prog) (g : G) : X * G :=
  match p with Return r => (r, g) | Tick next gen => exec (next g) (gen g) end.
End Workers.
Arguments prog G X : clear implicits.
Arguments fstate G X : clear implicits.

Section TreeJob.
Context {A : arith} {E : env A} (tk : task A E).
Notation T := (num A).
Notation result := (res (tobj A (tk_P tk) (tk_Y tk))).

Definition with_rng (g : gstate tk) (s : rng E) : gstate tk :=
  mkG tk (g_tree g) (g_parts g) s (g_fs g) (g_records g).

(** The while loop of [grow] (_grow.py:339-510), one iteration per step. All it uses besides
    the generator belongs to the job. *)
Fixpoint loop_prog (fuel : nat) (tc : tctx A (tk_Y tk)) (g : gstate tk) (finish : gstate tk -> result)
  : prog (rng E) result :=
  if has_records (g_records g) then
    match fuel with
    | O => Return (Err Fuel)
    | S fuel' => Tick (fun s => match grow_step tk tc (with_rng g s) with
                                | Ok g' => loop_prog fuel' tc g' finish
                                | Err e => Return (Err e)
                                end)
                      (fun s => match grow_step tk tc (with_rng g s) with Ok g' => g_rng g' | Err _ => s end)
    end
  else Tick (fun s => Return (finish (with_rng g s))) (fun s => s).

(** forest.py:81-121 and tree.py:241-306, 376-427 as a program. *)
Definition tree_prog (ME : menv E) (dirichlet : T) (p : @tree_params A) (fb : fba)
  (y : list (tk_Y tk)) (weights : list T) (seed : N) : prog (rng E) result :=
  match (let* ' (train, valid, counts) :=
           generate_train_valid (me_limit ME) (me_randint ME) seed (fb_n_samples fb) in
         let* w := bootstrap_weights weights train counts in Ok (train, valid, w)) with
  | Err e => Return (Err e)
  | Ok (train, valid, w) =>
      (* the constructor: seed the generator of the thread *)
      Tick (fun _ =>
        let ps := init_parts E fb train valid in
        match (let* tc := init_tree_context tk p fb y w in
               let* t0 := resize_tree (tk_pred0 tk) empty_tree (Some init_capacity) in
               let* rs := push_record (junk_record (E := E)) (new_records (junk_record (E := E)) initial_stack_size)
                            (mkRec None 0 false None 0 (length (p_train ps)) 0 (length (p_valid ps))) in
               Ok (tc, t0, rs)) with
        | Err e => Return (Err e)
        | Ok (tc, t0, rs) =>
            loop_prog (2 * length (p_train ps) + 1) tc
              (mkG tk t0 ps (me_seed ME seed) (init_fsamp (fb_n_features fb) (tp_max_features p)) rs)
              (fun g =>
                 let* g' := (if tc_aggregation tc then
                               let* nodes := compute_tree_weights (tr_nodes (g_tree g)) (tr_node_count (g_tree g)) (tc_step tc) in
                               Ok (mkG tk (with_nodes tk (g_tree g) nodes) (g_parts g) (g_rng g) (g_fs g) (g_records g))
                             else Ok g) in
                 Ok (mkTobj (tp_step p) dirichlet (tp_aggregation p) (Some (g_tree g'))
                       (Some (mkCobj tc (g_parts g') train valid dirichlet)) (Some train) (Some valid)))
        end) (fun _ => me_seed ME seed)
  end.
End TreeJob.

(** ** Whole fits, for one set of threads and one schedule *)
Section Fits.
Context {A : arith} {E : env A} {L D : Type} (leb : L -> L -> bool) {EC : encoding D} (ME : menv E).
Notation T := (num A).
Section AnyForest.
Context {P Y : Type}.
Notation result := (res (tobj A P Y)).

(** joblib's Parallel: the results in the order of the jobs, or an exception. None when the
    schedule is not one that completes. *)
Definition parallel (gens : list (rng E)) (sched : list nat) (jobs : list (prog (rng E) result))
  : option (res (list (tobj A P Y))) :=
  match wrun jobs sched (winitial jobs gens) with
  | None => None
  | Some st => match all_some (fs_results st) with None => None | Some rs => Some (mapM (fun r => r) rs) end
  end.

(** [fit_end] of M_Forest (forest.py:350-470) with threads. *)
Definition fit_end_run (gens : list (rng E)) (sched : list nat) (o : fobj A L EC P Y) (X : D) (repeats tree_classes : nat)
  (job : @tree_params A -> fba -> nat -> N -> prog (rng E) result) : option (mresult A L EC P Y) :=
  let n_features := snd (ec_shape EC X) in
  match get_max_features ME (fo_max_features o) n_features with
  | Err e => Some (raise o e)
  | Ok mf =>
      match fo_random_state o with
      | None => Some (raise o AttrErr)
      | Some rs =>
          let seeds := flat_map (fun s => repeat s repeats) (me_seeds ME rs (Z.to_nat (fo_n_estimators o))) in
          let o1 := w_seeds o seeds in
          match (let* enc := ec_fit EC (fo_max_bins o) X in
                 let* fb := ec_transform EC enc X in Ok (enc, fb)) with
          | Err e => Some (raise o1 e)
          | Ok (enc, fb) =>
              let o2 := w_encoder o1 (Some enc) in
              let p := tree_params_of o mf (ec_cats EC enc) in
              match parallel gens sched (map (fun '(t, seed) => job p fb t seed) (combine (seq 0 (length seeds)) seeds)) with
              | None => None
              | Some (Err e) => Some (raise o2 e)
              | Some (Ok ts) => Some (w_fitted (w_trees o2 (Some ts) tree_classes) true, None)
              end
          end
      end
  end.
End AnyForest.

(** [clf_fit] of M_Forest (forest.py:266-470 and 1138-1183) with threads. *)
Definition clf_fit_run (gens : list (rng E)) (sched : list nat) (o : clf_forest A L EC) (X : D) (y : list L)
  (sw : option (bool * list T)) : option (mresult A L EC (list T) nat * list T) :=
  let n := fst (ec_shape EC X) in
  let caller := match sw with None => [] | Some (_, w) => w end in
  if negb (length y =? n) then Some (raise o ValueErr, caller) else
  match check_weights n (option_map snd sw) with
  | Err e => Some (raise o e, caller)
  | Ok w =>
      let classes := uniq leb y in
      let K := length classes in
      let o1 := w_classes o classes in
      let '(o2, e2) :=
        match fo_multiclass o with
        | Ovr => if K <=? 2 then set_multiclass (PyStr "multinomial") o1 else (o1, None)
        | Multinomial => (o1, None)
        end in
      match e2 with
      | Some e => Some (raise o2 e, caller)
      | None =>
          let codes := encode_labels leb classes y in
          match fo_dirichlet o2 with
          | None => Some (raise o2 AttrErr, caller)
          | Some d =>
              if fo_aggregation o2 && aisz d then Some (raise o2 ValueErr, caller) else
              match fo_multiclass o2 with
              | Multinomial =>
                  let w' := if fo_balanced o2 then map (fun '(a, b) => amul a b) (combine w (balanced codes)) else w in
                  let caller' := match sw with Some (true, _) => w' | _ => caller end in
                  let tk := clf_task E K d (crit_of (fo_criterion o2)) (fo_strategy o2) in
                  option_map (fun r => (r, caller')) (fit_end_run gens sched o2 X 1 K (fun p fb _ seed => tree_prog tk ME d p fb codes w' seed))
              | Ovr =>
                  let tk := clf_task E 2 d (crit_of (fo_criterion o2)) (fo_strategy o2) in
                  option_map (fun r => (r, caller)) (fit_end_run gens sched o2 X K 2 (fun p fb t seed =>
                     let yk := binarize codes (t / Z.to_nat (fo_n_estimators o2)) in
                     let wk := if fo_balanced o2 then map (fun '(a, b) => amul a b) (combine w (balanced yk)) else w in
                     tree_prog tk ME d p fb yk wk seed))
              end
          end
      end
  end.

(** [reg_fit] of M_Forest with threads. *)
Definition reg_fit_run (gens : list (rng E)) (sched : list nat) (o : reg_forest A L EC) (X : D) (y : list T)
  (sw : option (bool * list T)) : option (mresult A L EC T T * list T) :=
  let n := fst (ec_shape EC X) in
  let caller := match sw with None => [] | Some (_, w) => w end in
  if negb (length y =? n) then Some (raise o ValueErr, caller) else
  match check_weights n (option_map snd sw) with
  | Err e => Some (raise o e, caller)
  | Ok w => option_map (fun r => (r, caller))
              (fit_end_run gens sched o X 1 0 (fun p fb _ seed => tree_prog (reg_task E) ME a0 p fb y w seed))
  end.
End Fits.
