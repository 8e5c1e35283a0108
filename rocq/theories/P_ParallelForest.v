(** * The jobs of predictions, one after the other *)

Require Import List Arith Lia Permutation Bool ZArith.
Require Import Verif.Base Verif.Num Verif.M_Bitarray Verif.M_Utils Verif.M_Context Verif.M_Node Verif.M_Split Verif.M_Tree Verif.M_Grow
  Verif.M_Object Verif.M_Forest Verif.M_Parallel Verif.P_Parallel.
Import ListNotations.

Definition agree {X} (a b : res X) : Prop :=
  match a, b with Ok x, Ok y => x = y | Err _, Err _ => True | _, _ => False end.

Lemma agree_ok : forall {X} (a b : res X) x, agree a b -> a = Ok x -> b = Ok x.
Proof. intros X [y|e] [z|e'] x H; cbn in H; try contradiction; congruence. Qed.
Lemma agree_err : forall {X} (a b : res X) e, agree a b -> a = Err e -> exists e', b = Err e'.
Proof. intros X [y|e] [z|e'] x H H'; cbn in H; try contradiction; try discriminate. eauto. Qed.

Lemma get_app : forall {X} (l1 l2 : list X) x, get (l1 ++ x :: l2) (length l1) = Ok x.
Proof. intros. unfold get. rewrite nth_error_app2, Nat.sub_diag by lia. reflexivity. Qed.
Lemma set_app : forall {X} (l1 l2 : list X) x z, set (l1 ++ x :: l2) (length l1) z = Ok (l1 ++ z :: l2).
Proof.
  intros. unfold set. rewrite app_length. cbn [length]. assert (E : (length l1 <? length l1 + S (length l2)) = true) by (apply Nat.ltb_lt; lia). rewrite E. f_equal.
  clear. induction l1 as [|y l1 IH]; cbn; [reflexivity|]. congruence.
Qed.

Section Jobs.
Context {A : arith}.
Notation T := (num A).

Lemma cells_run : forall p (m1 m2 : list (list T)) r1 r2 k, length r1 = k -> length r2 = length p ->
  exists z, zipM aadd r2 p = Ok z /\ length z = length p /\ run_ops (cells (length m1) k p) (m1 ++ (r1 ++ r2) :: m2) = Ok (m1 ++ (r1 ++ z) :: m2).
Proof.
  induction p as [|v p IH]; intros m1 m2 r1 r2 k Hk Hl.
  - destruct r2; [|discriminate]. exists []. cbn. auto.
  - destruct r2 as [|x r2]; [discriminate|]. cbn [length] in Hl.
    destruct (IH m1 m2 (r1 ++ [aadd x v]) r2 (S k)) as (z & Z1 & Z2 & Z3); [rewrite app_length; cbn; lia|lia|].
    exists (aadd x v :: z). split; [cbn [zipM]; rewrite Z1; reflexivity|]. split; [cbn; lia|].
    unfold run_ops in *. cbn [cells foldM add_cell op_load op_store]. subst k. repeat (rewrite get_app; cbn [bind]).
    rewrite set_app. cbn [bind]. rewrite set_app. cbn [bind]. rewrite <- !app_assoc in Z3. exact Z3.
Qed.

Lemma run_ops_app : forall {M V} (a b : list (op M V)) m, run_ops (a ++ b) m = (let* m' := run_ops a m in run_ops b m').
Proof. intros. apply foldM_app. Qed.

Lemma row_agree : forall n_est ovr t K (m1 m2 : list (list T)) row p, length row = K ->
  agree (let* a := row_ops n_est ovr t K (length m1) p in run_ops a (m1 ++ row :: m2))
        (let* row' := add_proba n_est ovr t row p in Ok (m1 ++ row' :: m2)) /\
  forall row', add_proba n_est ovr t row p = Ok row' -> length row' = K.
Proof.
  intros n_est ovr t K m1 m2 row p Hr. unfold row_ops, add_proba. destruct ovr.
  - destruct (get p 1) as [v|e]; cbn [bind]; [|split; [exact I|discriminate]].
    destruct (Nat.ltb_spec (t / n_est) K) as [Hlt|Hge].
    + unfold add_at. destruct (get row (t / n_est)) as [x|e] eqn:Eg.
      2: { exfalso. unfold get in Eg. destruct (nth_error row (t / n_est)) eqn:En; [discriminate|]. apply nth_error_None in En. lia. }
      cbn [bind]. unfold set at 1 2. assert (E : (t / n_est <? length row) = true) by (apply Nat.ltb_lt; lia). rewrite E.
      split; [|intros row' H; injection H as <-; rewrite upd_length; exact Hr].
      unfold run_ops. cbn [foldM add_cell op_load op_store bind]. repeat (rewrite get_app; cbn [bind]). rewrite Eg. cbn [bind]. repeat (rewrite get_app; cbn [bind]).
      unfold set at 1. rewrite E. cbn [bind]. rewrite set_app. cbn [bind agree]. reflexivity.
    + unfold add_at, get. assert (En : nth_error row (t / n_est) = None) by (apply nth_error_None; lia). rewrite En. split; [exact I|discriminate].
  - destruct (Nat.eqb_spec (length p) K) as [Hp|Hp].
    + destruct (cells_run p m1 m2 [] row 0 eq_refl ltac:(lia)) as (z & Z1 & Z2 & Z3). rewrite Z1. cbn [bind]. cbn [app] in Z3.
      rewrite Z3. split; [reflexivity|]. intros row' H. injection H as <-. lia.
    + assert (G : forall l q : list T, length l <> length q -> exists e, zipM aadd l q = Err e).
      { clear. induction l as [|x l IH]; intros [|y q] H; cbn in *; eauto; try lia. destruct (IH q) as (e & He); [lia|]. rewrite He. cbn. eauto. }
      destruct (G row p ltac:(lia)) as (e & He). rewrite He. cbn. split; [exact I|discriminate].
Qed.

Definition shape (K : nat) (m : list (list T)) : Prop := forall row, In row m -> length row = K.

Lemma rows_agree : forall n_est ovr t K preds (m1 m2 : list (list T)), shape K m2 -> length m2 = length preds ->
  agree (let* a := rows_ops n_est ovr t K (length m1) preds in run_ops a (m1 ++ m2))
        (let* r := mapM (fun '(q, p) => add_proba n_est ovr t q p) (combine m2 preds) in Ok (m1 ++ r)) /\
  forall r, mapM (fun '(q, p) => add_proba n_est ovr t q p) (combine m2 preds) = Ok r -> shape K r /\ length r = length preds.
Proof.
  intros n_est ovr t K preds. induction preds as [|p preds IH]; intros m1 m2 Hs Hl.
  - destruct m2; [|discriminate]. cbn. split; [reflexivity|]. intros r H. injection H as <-. split; [intros ? []|reflexivity].
  - destruct m2 as [|row m2]; [discriminate|]. cbn [length] in Hl. cbn [combine mapM rows_ops].
    assert (Hrow : length row = K) by (apply Hs; simpl; auto).
    destruct (row_agree n_est ovr t K m1 m2 row p Hrow) as [R1 R2].
    destruct (add_proba n_est ovr t row p) as [row'|e] eqn:Ea.
    + destruct (row_ops n_est ovr t K (length m1) p) as [a|e] eqn:Er; [|contradiction R1]. cbn [bind agree] in R1. cbn [bind].
      destruct (run_ops a (m1 ++ row :: m2)) as [mm|e] eqn:Em; [|contradiction R1]. cbn [agree] in R1. subst mm.
      destruct (IH (m1 ++ [row']) m2) as [I1 I2]; [intros z Hz; apply Hs; simpl; auto|lia|].
      rewrite app_length in I1. cbn [length] in I1. replace (length m1 + 1) with (S (length m1)) in I1 by lia.
      split.
      * destruct (rows_ops n_est ovr t K (S (length m1)) preds) as [b|e].
        -- cbn [bind] in I1 |- *. rewrite run_ops_app, Em. cbn [bind]. rewrite <- app_assoc in I1. cbn [app] in I1.
           destruct (mapM _ (combine m2 preds)) as [r|e]; cbn [bind agree] in I1 |- *.
           ++ destruct (run_ops b (m1 ++ row' :: m2)); [|contradiction]. rewrite I1, <- app_assoc. reflexivity.
           ++ exact I1.
        -- destruct (mapM _ (combine m2 preds)) as [r|e']; cbn [bind agree] in I1 |- *; exact I1.
      * intros r H. destruct (mapM _ (combine m2 preds)) as [r0|e]; cbn [bind] in H; [|discriminate]. injection H as <-.
        destruct (I2 r0 eq_refl) as [S1 S2]. split; [|cbn; lia]. intros z [<-|Hz]; [apply R2; reflexivity|auto].
    + cbn [bind] in R1 |- *. split; [|discriminate].
      destruct (row_ops n_est ovr t K (length m1) p) as [a|e'] eqn:Er; cbn [bind] in R1 |- *; [|exact I].
      destruct (run_ops a (m1 ++ row :: m2)) as [mm|e'] eqn:Em; [contradiction R1|].
      destruct (rows_ops n_est ovr t K (S (length m1)) preds) as [b|e'']; cbn [bind]; [|exact I]. rewrite run_ops_app, Em. exact I.
Qed.

Lemma indexed_nth : forall {X} (l : list X) t, nth_error (indexed l) t = match nth_error l t with Some x => Some (t, x) | None => None end.
Proof.
  intros X l. unfold indexed. assert (G : forall (l : list X) k t, nth_error (combine (seq k (length l)) l) t = match nth_error l t with Some x => Some (k + t, x) | None => None end).
  { clear. induction l as [|y l IH]; intros k [|t]; cbn; auto. - f_equal. f_equal. lia. - rewrite IH. destruct (nth_error l t); [|reflexivity]. f_equal. f_equal. lia. }
  intros t. rewrite G. reflexivity.
Qed.

Lemma serial_proba : forall n_est ovr K fb (ts : list (tobj A (list T) nat)) order m, shape K m -> length m = fb_n_samples fb ->
  agree (serial (proba_jobs n_est ovr K fb ts) order m)
        (foldM (fun out t => let* tr := get ts t in
                      let* preds := obj_predict mix_vec tr fb in
                      if negb (length out =? length preds) then Err ValueErr
                      else mapM (fun '(q, p) => add_proba n_est ovr t q p) (combine out preds)) order m).
Proof.
  intros n_est ovr K fb ts order. induction order as [|t order IH]; intros m Hs Hl; [reflexivity|].
  unfold serial in *. cbn [foldM]. unfold proba_jobs at 1. unfold get at 1. rewrite nth_error_map, indexed_nth. unfold get at 2.
  destruct (nth_error ts t) as [tr|] eqn:Et; cbn [option_map bind]; [|exact I].
  unfold proba_job at 1. destruct (obj_predict mix_vec tr fb) as [preds|e]; cbn [bind]; [|exact I].
  rewrite <- Hl. rewrite (Nat.eqb_sym (length m)). destruct (Nat.eqb_spec (length preds) (length m)) as [Hp|Hp]; cbn [negb bind]; [|exact I].
  destruct (rows_agree n_est ovr t K preds [] m Hs ltac:(lia)) as [R1 R2]. cbn [length app] in R1.
  destruct (mapM _ (combine m preds)) as [r|e] eqn:Em; cbn [bind] in R1 |- *.
  - destruct (rows_ops n_est ovr t K 0 preds) as [a|e]; cbn [bind] in R1 |- *; [|contradiction].
    destruct (run_ops a m) as [mm|e]; [|contradiction]. cbn [agree] in R1. subst mm. cbn [bind]. destruct (R2 r eq_refl) as [S1 S2]. apply IH; [exact S1|lia].
  - destruct (rows_ops n_est ovr t K 0 preds) as [a|e']; cbn [bind] in R1 |- *; [|exact I].
    destruct (run_ops a m) as [mm|e']; [contradiction|exact I].
Qed.

Lemma entries_run : forall p (m1 m2 : list T), length m2 = length p ->
  exists z, mapM (fun '(q, p) => Ok (aadd q p)) (combine m2 p) = Ok z /\ length z = length p /\ run_ops (entries (length m1) p) (m1 ++ m2) = Ok (m1 ++ z).
Proof.
  induction p as [|v p IH]; intros m1 m2 Hl.
  - destruct m2; [|discriminate]. exists []. cbn. auto.
  - destruct m2 as [|x m2]; [discriminate|]. cbn [length] in Hl. destruct (IH (m1 ++ [aadd x v]) m2 ltac:(lia)) as (z & Z1 & Z2 & Z3).
    exists (aadd x v :: z). split; [cbn [combine mapM bind]; rewrite Z1; reflexivity|]. split; [cbn; lia|].
    unfold run_ops in *. cbn [entries foldM add_entry op_load op_store]. rewrite get_app. cbn [bind]. rewrite set_app. cbn [bind].
    rewrite <- !app_assoc in Z3. rewrite app_length in Z3. cbn [length app] in Z3. replace (length m1 + 1) with (S (length m1)) in Z3 by lia. exact Z3.
Qed.

Lemma serial_reg : forall fb (ts : list (tobj A T T)) order m, length m = fb_n_samples fb ->
  agree (serial (map (reg_job fb) ts) order m)
        (foldM (fun out t => let* tr := get ts t in
                      let* preds := obj_predict mix_num tr fb in
                      if negb (length out =? length preds) then Err ValueErr
                      else mapM (fun '(q, p) => Ok (aadd q p)) (combine out preds)) order m).
Proof.
  intros fb ts order. induction order as [|t order IH]; intros m Hl; [reflexivity|].
  unfold serial in *. cbn [foldM]. unfold get at 1. rewrite nth_error_map. unfold get at 2.
  destruct (nth_error ts t) as [tr|] eqn:Et; cbn [option_map bind]; [|exact I].
  unfold reg_job at 1. destruct (obj_predict mix_num tr fb) as [preds|e]; cbn [bind]; [|exact I].
  rewrite <- Hl. rewrite (Nat.eqb_sym (length m)). destruct (Nat.eqb_spec (length preds) (length m)) as [Hp|Hp]; cbn [negb bind]; [|exact I].
  destruct (entries_run preds [] m ltac:(lia)) as (z & Z1 & Z2 & Z3). cbn [length app] in Z3. rewrite Z1, Z3. cbn [bind]. apply IH. lia.
Qed.
End Jobs.

(** ** Jobs that write their own row *)
Section Writes.
Context {V : Type}.

Lemma writes_run : forall p t (m1 m2 : list (list V)) r1 r2, length m1 = t -> length r2 = length p ->
  run_ops (writes t (length r1) p) (m1 ++ (r1 ++ r2) :: m2) = Ok (m1 ++ (r1 ++ p) :: m2).
Proof.
  induction p as [|v p IH]; intros t m1 m2 r1 r2 Ht Hl.
  - destruct r2; [|discriminate]. reflexivity.
  - destruct r2 as [|x r2]; [discriminate|]. cbn [length] in Hl. unfold run_ops in *. cbn [writes foldM write_cell op_load op_store bind]. subst t.
    rewrite get_app. cbn [bind]. rewrite set_app. cbn [bind]. rewrite set_app. cbn [bind].
    specialize (IH (length m1) m1 m2 (r1 ++ [v]) r2 eq_refl ltac:(lia)). rewrite <- !app_assoc, app_length in IH. cbn [length app] in IH.
    replace (length r1 + 1) with (S (length r1)) in IH by lia. exact IH.
Qed.

(** Row [t] is [vs t] for every job done. *)
Lemma serial_writes : forall n (ps : list (res (list V))) vs order m,
  Forall2 (fun p v => p = Ok v /\ length v = n) ps vs ->
  (forall row, In row m -> length row = n) -> length m = length ps -> (forall t, In t order -> t < length ps) ->
  exists m', serial (write_jobs n ps) order m = Ok m' /\ length m' = length ps /\
    forall t, nth_error m' t = if in_dec Nat.eq_dec t order then nth_error vs t else nth_error m t.
Proof.
  intros n ps vs order m HF. revert m. induction order as [|t order IH]; intros m Hm Hl Ho.
  - exists m. split; [reflexivity|]. split; [exact Hl|]. intros t. cbn. reflexivity.
  - assert (Ht : t < length ps) by (apply Ho; simpl; auto).
    destruct (nth_error ps t) as [p|] eqn:Ep; [|apply nth_error_None in Ep; lia].
    assert (Hv : exists v, nth_error vs t = Some v /\ p = Ok v /\ length v = n).
    { clear - HF Ep. revert t Ep. induction HF as [|p0 v0 ps vs H HF IH]; intros [|t] Ep; try discriminate; cbn in *.
      - injection Ep as <-. eauto. - auto. }
    destruct Hv as (v & Ev & -> & Hlv).
    destruct (nth_error m t) as [row|] eqn:Em; [|apply nth_error_None in Em; lia].
    assert (Hrow : length row = n) by (apply Hm; eapply nth_error_In; eauto).
    destruct (nth_error_split _ _ Em) as (m1 & m2 & E1 & E2).
    assert (Hw : run_ops (writes t 0 v) m = Ok (m1 ++ v :: m2)).
    { rewrite E1. apply (writes_run v t m1 m2 [] row E2). lia. }
    destruct (IH (m1 ++ v :: m2)) as (m' & M1 & M2 & M3).
    + intros r Hr. apply in_app_iff in Hr. destruct Hr as [Hr|[<-|Hr]]; [apply Hm; rewrite E1, in_app_iff; auto|exact Hlv|apply Hm; rewrite E1, in_app_iff; simpl; auto].
    + rewrite <- Hl, E1, !app_length. reflexivity.
    + intros k Hk. apply Ho. simpl; auto.
    + exists m'. split; [|split; [exact M2|]].
      * unfold serial in *. cbn [foldM]. unfold write_jobs at 1. unfold get. rewrite nth_error_map, indexed_nth, Ep. cbn [option_map bind]. unfold write_job at 1. cbn [bind].
        apply Nat.eqb_eq in Hlv. rewrite Hlv. cbn [bind]. rewrite Hw. cbn [bind]. exact M1.
      * intros k. rewrite M3. destruct (in_dec Nat.eq_dec k order) as [Hi|Hi]; destruct (in_dec Nat.eq_dec k (t :: order)) as [Hj|Hj]; auto.
        -- exfalso. apply Hj. simpl; auto.
        -- destruct Hj as [<-|Hj]; [|contradiction]. rewrite Ev. rewrite <- E2. rewrite nth_error_app2, Nat.sub_diag by lia. reflexivity.
        -- rewrite E1. assert (k <> t) by (intros ->; apply Hj; simpl; auto).
           destruct (Nat.lt_ge_cases k (length m1)) as [Hk|Hk]; [rewrite !nth_error_app1 by lia; reflexivity|]. rewrite !nth_error_app2 by lia.
           destruct (k - length m1) as [|q] eqn:Eq; [lia|]. reflexivity.
Qed.

Lemma writes_all : forall n (ps : list (res (list V))) vs order m,
  Forall2 (fun p v => p = Ok v /\ length v = n) ps vs -> (forall row, In row m -> length row = n) -> length m = length ps ->
  Permutation order (seq 0 (length ps)) -> serial (write_jobs n ps) order m = Ok vs.
Proof.
  intros n ps vs order m HF Hm Hl HP.
  assert (Hlen : length ps = length vs) by (clear - HF; induction HF; cbn; congruence).
  destruct (serial_writes n ps vs order m HF Hm Hl) as (m' & M1 & M2 & M3).
  { intros t Ht. apply (Permutation_in _ HP) in Ht. apply in_seq in Ht. lia. }
  rewrite M1. f_equal. apply nth_error_ext. intros t. rewrite M3. destruct (in_dec Nat.eq_dec t order) as [Hi|Hi]; [reflexivity|].
  assert (Hge : length ps <= t).
  { destruct (Nat.lt_ge_cases t (length ps)) as [Hlt|]; [|auto]. exfalso. apply Hi. apply (Permutation_in _ (Permutation_sym HP)). apply in_seq. lia. }
  rewrite (proj2 (nth_error_None m t)) by lia. rewrite (proj2 (nth_error_None vs t)) by lia. reflexivity.
Qed.
End Writes.
