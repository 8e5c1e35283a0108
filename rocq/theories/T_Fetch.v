(** * C66, C67: interrupted and concurrent loads of downloaded datasets *)

Require Import String List Arith Bool Lia.
Require Import Verif.Base Verif.M_Fetch Verif.S_Fetch.
Import ListNotations.
Local Notation length := List.length.

(** ** Steps *)
Definition leads (s : fs) (p : prog) (s' : fs) (p' : prog) : Prop := exists n, steps n s p = (s', p').

Lemma steps_plus : forall n m s p, steps (n + m) s p = let (s', p') := steps n s p in steps m s' p'.
Proof.
  induction n as [|n IH]; intros m s p; [reflexivity|]. cbn [plus steps]. destruct (step s p) as [[s1 p1]|] eqn:H; [apply IH|].
  destruct m; [reflexivity|]. cbn [steps]. rewrite H. reflexivity.
Qed.
Lemma leads_refl : forall s p, leads s p s p.
Proof. intros. exists 0. reflexivity. Qed.
Lemma leads_trans : forall s p s1 p1 s2 p2, leads s p s1 p1 -> leads s1 p1 s2 p2 -> leads s p s2 p2.
Proof. intros s p s1 p1 s2 p2 [n H] [m H']. exists (n + m). rewrite steps_plus, H. exact H'. Qed.
Lemma leads_step : forall s p s1 p1 s2 p2, step s p = Some (s1, p1) -> leads s1 p1 s2 p2 -> leads s p s2 p2.
Proof. intros s p s1 p1 s2 p2 H [n Hn]. exists (S n). cbn [steps]. rewrite H. exact Hn. Qed.

Lemma exec_step : forall s p s' p', step s p = Some (s', p') -> exec p s = exec p' s'.
Proof.
  intros s p s' p' H. destruct p; cbn in *; try discriminate; try (inversion H; subst; reflexivity);
    destruct (s p); inversion H; subst; reflexivity.
Qed.
Lemma exec_leads : forall s p s' p', leads s p s' p' -> exec p s = exec p' s'.
Proof.
  intros s p s' p' [n H]. revert s p H. induction n as [|n IH]; intros s p H; cbn [steps] in H; [inversion H; reflexivity|].
  destruct (step s p) as [[s1 p1]|] eqn:Hs; [rewrite (exec_step _ _ _ _ Hs); apply IH; exact H|inversion H; reflexivity].
Qed.

Definition final (o : outcome) : prog := match o with Returned d => Ret d | Raised e => Raise e end.
Lemma exec_reached : forall p s, leads s p (fst (exec p s)) (final (snd (exec p s))).
Proof.
  induction p as [d|e|q k IH|q k IH|q k IH|q i b k IH|q k IH|q k IH]; intros s; cbn [exec]; try apply leads_refl.
  - eapply leads_step; [reflexivity|apply IH].
  - destruct (s q) eqn:Hq; (eapply leads_step; [cbn; rewrite Hq; reflexivity|apply IH]).
  - eapply leads_step; [reflexivity|apply IH].
  - destruct (s q) eqn:Hq; (eapply leads_step; [cbn; rewrite Hq; reflexivity|apply IH]).
  - eapply leads_step; [reflexivity|apply IH].
  - destruct (s q) eqn:Hq; (eapply leads_step; [cbn; rewrite Hq; reflexivity|apply IH]).
Qed.

(** A property of all the points of a call. *)
Definition always (Q : fs -> prog -> Prop) (s : fs) (p : prog) : Prop := forall s' p', leads s p s' p' -> Q s' p'.
Lemma always_intro : forall (Q : fs -> prog -> Prop) s p, Q s p -> (forall s' p', step s p = Some (s', p') -> always Q s' p') -> always Q s p.
Proof.
  intros Q s p H HS s' p' [n Hn]. destruct n as [|n]; cbn [steps] in Hn; [inversion Hn; subst; exact H|].
  destruct (step s p) as [[s1 p1]|]; [|inversion Hn; subst; exact H]. apply (HS s1 p1 eq_refl). exists n. exact Hn.
Qed.

Lemma upd_same : forall s p c, upd s p c p = c.
Proof. intros. unfold upd. rewrite String.eqb_refl. reflexivity. Qed.
Lemma upd_other : forall s p c q, q <> p -> upd s p c q = s q.
Proof. intros. unfold upd. destruct (String.eqb_spec q p); [contradiction|reflexivity]. Qed.

Lemma put_end : forall c i b, length c = i -> put c i b = c ++ [b].
Proof.
  intros c i b <-. unfold put. rewrite firstn_app, firstn_all, Nat.sub_diag, skipn_all2 by lia. cbn [firstn]. rewrite app_nil_r. reflexivity.
Qed.

(** ** What the parts of a call do *)
Lemma leads_write : forall q c pre i s k, s q = Some pre -> length pre = i ->
  exists s', leads s (write_all q i c k) s' k /\ s' q = Some (pre ++ c) /\ forall r, r <> q -> s' r = s r.
Proof.
  intros q c. induction c as [|b c IH]; intros pre i s k Hq Hi; cbn [write_all].
  - exists s. split; [apply leads_refl|]. rewrite app_nil_r. auto.
  - destruct (IH (pre ++ [b]) (S i) (upd s q (Some (put pre i b))) k) as (s' & H1 & H2 & H3).
    + rewrite upd_same, (put_end _ _ _ Hi). reflexivity.
    + rewrite app_length. cbn. lia.
    + exists s'. split; [eapply leads_step; [cbn; rewrite Hq; reflexivity|exact H1]|]. rewrite <- app_assoc in H2. split; [exact H2|].
      intros r Hr. rewrite (H3 r Hr). apply upd_other. exact Hr.
Qed.

(** The writing of a file, interrupted. *)
Lemma leads_write_part : forall q c1 c2 s k, exists s',
  leads s (Open q (write_all q 0 (c1 ++ c2) k)) s' (write_all q (length c1) c2 k) /\ s' q = Some c1 /\ forall r, r <> q -> s' r = s r.
Proof.
  intros q c1 c2 s k.
  assert (forall c1 pre i s, s q = Some pre -> length pre = i -> exists s',
    leads s (write_all q i (c1 ++ c2) k) s' (write_all q (i + length c1) c2 k) /\ s' q = Some (pre ++ c1) /\ forall r, r <> q -> s' r = s r) as H.
  { clear. induction c1 as [|b c IH]; intros pre i s Hq Hi; cbn [app write_all length].
    - exists s. rewrite Nat.add_0_r, app_nil_r. split; [apply leads_refl|auto].
    - destruct (IH (pre ++ [b]) (S i) (upd s q (Some (put pre i b)))) as (s' & H1 & H2 & H3).
      + rewrite upd_same, (put_end _ _ _ Hi). reflexivity.
      + rewrite app_length. cbn. lia.
      + exists s'. split; [eapply leads_step; [cbn; rewrite Hq; reflexivity|]|].
        * replace (i + S (length c)) with (S i + length c) by lia. exact H1.
        * rewrite <- app_assoc in H2. split; [exact H2|]. intros r Hr. rewrite (H3 r Hr). apply upd_other. exact Hr. }
  destruct (H c1 [] 0 (upd s q (Some [])) (upd_same _ _ _) eq_refl) as (s' & H1 & H2 & H3).
  exists s'. split; [eapply leads_step; [reflexivity|exact H1]|]. split; [exact H2|]. intros r Hr. rewrite (H3 r Hr). apply upd_other. exact Hr.
Qed.

Lemma leads_fetch : forall a c s k, exists s', s' (fst a) = Some c /\ (forall r, r <> fst a -> s' r = s r) /\
  leads s (fetch_remote a c k) s' (if list_eq_dec Nat.eq_dec c (snd a) then k else Raise BadChecksum).
Proof.
  intros a c s k. unfold fetch_remote. set (k' := Read _ _).
  destruct (leads_write (fst a) c [] 0 (upd s (fst a) (Some [])) k' (upd_same _ _ _) eq_refl) as (s' & H1 & H2 & H3).
  exists s'. split; [exact H2|]. split; [intros r Hr; rewrite (H3 r Hr); apply upd_other; exact Hr|].
  eapply leads_step; [reflexivity|]. eapply leads_trans; [exact H1|]. eapply leads_step; [reflexivity|]. rewrite H2. apply leads_refl.
Qed.

Lemma leads_download : forall archives net s k, NoDup (map fst archives) -> faithful archives net ->
  exists s', leads s (download archives net k) s' k /\ (forall a, In a archives -> s' (fst a) = Some (snd a)) /\
    forall r, ~ In r (map fst archives) -> s' r = s r.
Proof.
  induction archives as [|a t IH]; intros net s k Hn Hf; cbn [download].
  - exists s. split; [apply leads_refl|]. split; [intros a []|auto].
  - inversion Hn as [|x l Hx Hn']; subst. destruct (leads_fetch a (net (fst a)) s (download t net k)) as (s1 & H1 & H2 & H3).
    rewrite (Hf a (or_introl eq_refl)) in H1, H3. destruct (list_eq_dec Nat.eq_dec (snd a) (snd a)) as [_|He]; [|contradiction].
    destruct (IH net s1 k Hn') as (s2 & H4 & H5 & H6); [intros b Hb; apply Hf; right; exact Hb|].
    exists s2. split; [|split].
    + rewrite (Hf a (or_introl eq_refl)). eapply leads_trans; [exact H3|exact H4].
    + intros b [<-|Hb]; [rewrite (H6 (fst a) Hx); exact H1|apply H5; exact Hb].
    + intros r Hr. rewrite H6, H2; [reflexivity| |]; intros Hc; apply Hr; cbn; auto.
Qed.

Lemma leads_read : forall ps cs s k, Forall2 (fun p c => s p = Some c) ps cs -> leads s (read_all ps k) s (k cs).
Proof.
  intros ps cs s k H. revert k. induction H as [|p c ps cs Hp H IH]; intros k; cbn [read_all]; [apply leads_refl|].
  eapply leads_step; [reflexivity|]. rewrite Hp. apply IH.
Qed.

Lemma leads_remove : forall ps s k, NoDup ps -> (forall p, In p ps -> s p <> None) ->
  exists s', leads s (remove_all ps k) s' k /\ forall r, ~ In r ps -> s' r = s r.
Proof.
  induction ps as [|p ps IH]; intros s k Hn Hp; cbn [remove_all].
  - exists s. split; [apply leads_refl|auto].
  - inversion Hn as [|x l Hx Hn']; subst. destruct (IH (upd s p None) k Hn') as (s' & H1 & H2).
    + intros r Hr. rewrite upd_other; [apply Hp; right; exact Hr|]. intros ->. contradiction.
    + exists s'. split.
      * eapply leads_step; [|exact H1]. cbn. destruct (s p) eqn:He; [reflexivity|]. exfalso. apply (Hp p); [left; reflexivity|exact He].
      * intros r Hr. rewrite H2 by (intros Hc; apply Hr; right; exact Hc). apply upd_other. intros ->. apply Hr. left. reflexivity.
Qed.

Lemma leads_home : forall h s k, exists s', leads s (get_data_home h k) s' k /\ s' h <> None /\ (s h <> None -> s' = s) /\ forall r, r <> h -> s' r = s r.
Proof.
  intros h s k. unfold get_data_home. destruct (s h) as [c|] eqn:Hh.
  - exists s. split; [eapply leads_step; [reflexivity|rewrite Hh; apply leads_refl]|]. split; [congruence|]. auto.
  - exists (upd s h (Some [])). split; [eapply leads_step; [reflexivity|]; rewrite Hh; cbn [is_some]; eapply leads_step; [cbn; rewrite Hh; reflexivity|apply leads_refl]|].
    rewrite upd_same. split; [discriminate|]. split; [congruence|]. intros r Hr. apply upd_other. exact Hr.
Qed.

Lemma leads_mkdirp : forall h s k, exists s', leads s (mkdirp h k) s' k /\ (forall r, r <> h -> s' r = s r).
Proof.
  intros h s k. unfold mkdirp. destruct (s h) as [c|] eqn:Hh.
  - exists s. split; [eapply leads_step; [cbn; rewrite Hh; reflexivity|apply leads_refl]|auto].
  - exists (upd s h (Some [])). split; [eapply leads_step; [cbn; rewrite Hh; reflexivity|apply leads_refl]|]. intros r Hr. apply upd_other. exact Hr.
Qed.

(** ** Calls which change nothing *)
Definition quiet (cs : list content) (s : fs) (p : prog) : Prop := forall n, fst (steps n s p) = s /\
  (forall r, snd (steps n s p) = Ret r -> r = cs) /\ (forall e, snd (steps n s p) <> Raise e).

Lemma quiet_step : forall cs s p s' p', quiet cs s p -> step s p = Some (s', p') -> s' = s /\ quiet cs s p'.
Proof.
  intros c s p s' p' H Hs. assert (s' = s) as ->.
  { destruct (H 1) as [H1 _]. cbn [steps] in H1. rewrite Hs in H1. exact H1. }
  split; [reflexivity|]. intros n. specialize (H (S n)). cbn [steps] in H. rewrite Hs in H. exact H.
Qed.

Lemma quiet_intro : forall cs s p, (forall r, p = Ret r -> r = cs) -> (forall e, p <> Raise e) ->
  (forall s' p', step s p = Some (s', p') -> s' = s /\ quiet cs s p') -> quiet cs s p.
Proof.
  intros c s p H1 H2 H3 n. destruct n as [|n]; cbn [steps]; [auto|]. destruct (step s p) as [[s' p']|] eqn:Hs; [|auto].
  destruct (H3 _ _ eq_refl) as [-> Hq]. apply Hq.
Qed.

Lemma quiet_home : forall cs s h k, s h <> None -> quiet cs s k -> quiet cs s (get_data_home h k).
Proof.
  intros cs s h k Hh Hk. unfold get_data_home. apply quiet_intro; try discriminate. intros s' p' H. inversion H; subst. split; [reflexivity|].
  destruct (s' h); [exact Hk|contradiction].
Qed.
Lemma quiet_read : forall cs s ps k, Forall2 (fun p c => s p = Some c) ps cs -> forall all, quiet all s (k cs) -> quiet all s (read_all ps k).
Proof.
  intros cs s ps k H. revert k. induction H as [|p c ps cs Hp H IH]; intros k all Hk; cbn [read_all]; [exact Hk|].
  apply quiet_intro; try discriminate. intros s' p' Hs. inversion Hs; subst. split; [reflexivity|]. rewrite Hp. apply IH. exact Hk.
Qed.
Lemma quiet_ret : forall cs s, quiet cs s (Ret cs).
Proof. intros cs s. apply quiet_intro; try discriminate. intros r Hr. inversion Hr. reflexivity. Qed.

Lemma Forall_set_nth : forall {X} (P : X -> Prop) l i x, Forall P l -> P x -> Forall P (set_nth l i x).
Proof. intros X P l i x H. revert i. induction H as [|y l Hy H IH]; intros [|i] Hx; cbn; auto. Qed.

Lemma quiet_psteps : forall cs s schedule ps s' ps', Forall (quiet cs s) ps -> psteps schedule s ps = (s', ps') ->
  s' = s /\ forall p, In p ps' -> (forall r, p = Ret r -> r = cs) /\ (forall e, p <> Raise e).
Proof.
  intros cs s schedule. induction schedule as [|i t IH]; intros ps s' ps' HQ H; cbn [psteps] in H.
  - inversion H; subst. split; [reflexivity|]. intros p Hp. rewrite Forall_forall in HQ. destruct (HQ p Hp 0) as (_ & H1 & H2). auto.
  - destruct (pstep i s ps) as [s1 ps1] eqn:Hp. unfold pstep in Hp. destruct (nth_error ps i) as [p|] eqn:Hi; [|inversion Hp; subst; apply (IH _ _ _ HQ H)].
    destruct (step s p) as [[s2 p2]|] eqn:Hs; [|inversion Hp; subst; apply (IH _ _ _ HQ H)]. inversion Hp; subst s1 ps1.
    destruct (quiet_step cs s p s2 p2) as [-> Hq]; [|exact Hs|].
    + rewrite Forall_forall in HQ. apply HQ. apply nth_error_In in Hi. exact Hi.
    + apply (IH _ _ _ (Forall_set_nth _ _ _ _ HQ Hq) H).
Qed.

(** One call runs for a while. *)
Lemma psteps_app : forall t1 t2 s ps, psteps (t1 ++ t2) s ps = let (s', ps') := psteps t1 s ps in psteps t2 s' ps'.
Proof. induction t1 as [|i t1 IH]; intros t2 s ps; [reflexivity|]. cbn [app psteps]. destruct (pstep i s ps). apply IH. Qed.
Lemma set_nth_same : forall {X} (l : list X) i x, nth_error l i = Some x -> set_nth l i x = l.
Proof. intros X. induction l as [|y l IH]; intros [|i] x H; cbn in *; try discriminate; [congruence|]. rewrite IH; auto. Qed.
Lemma set_nth_twice : forall {X} (l : list X) i x y, set_nth (set_nth l i x) i y = set_nth l i y.
Proof. intros X. induction l as [|z l IH]; intros [|i] x y; cbn; auto. rewrite IH. reflexivity. Qed.
Lemma nth_error_set_nth : forall {X} (l : list X) i x y, nth_error l i = Some x -> nth_error (set_nth l i y) i = Some y.
Proof. intros X. induction l as [|z l IH]; intros [|i] x y H; cbn in *; try discriminate; auto. apply (IH i x y H). Qed.
Lemma psteps_alone : forall n i s ps p s' p', nth_error ps i = Some p -> steps n s p = (s', p') -> psteps (repeat i n) s ps = (s', set_nth ps i p').
Proof.
  induction n as [|n IH]; intros i s ps p s' p' Hi H; cbn [repeat psteps steps] in *; [inversion H; subst; rewrite set_nth_same; auto|].
  unfold pstep. rewrite Hi. destruct (step s p) as [[s1 p1]|] eqn:Hs.
  - rewrite (IH i s1 (set_nth ps i p1) p1 s' p' (nth_error_set_nth _ _ _ _ Hi) H), set_nth_twice. reflexivity.
  - inversion H; subst. destruct n as [|n]; cbn [repeat psteps]; [rewrite set_nth_same; auto|].
    clear IH. induction n as [|n IHn]; cbn [repeat psteps]; [unfold pstep; rewrite Hi, Hs, set_nth_same; auto|].
    unfold pstep. rewrite Hi, Hs. cbn [psteps repeat] in IHn. apply IHn.
Qed.

(** ** Converted datasets *)
Section Converted.
Context (d : converted) (full : content).
Let data := cv_data d.
Let names := map fst (cv_archives d).
Let published := map snd (cv_archives d).

(** The names of the files are different, and [full] is the complete converted file. *)
Definition converted_ok : Prop := NoDup (cv_home d :: cv_dir d :: data :: names) /\ cv_convert d published = Some full.
Context (OK : converted_ok).

Lemma ok_names : NoDup names /\ ~ In data names /\ ~ In (cv_home d) names /\ ~ In (cv_dir d) names /\ data <> cv_home d /\ data <> cv_dir d /\ cv_home d <> cv_dir d.
Proof.
  destruct OK as [H _]. inversion H as [|h1 l1 A1 B1]; subst. inversion B1 as [|h2 l2 A2 B2]; subst. inversion B2 as [|h3 l3 A3 B3]; subst. cbn in A1, A2.
  repeat split; intuition congruence.
Qed.

Lemma present_published : forall (s : fs) (l : list (path * content)), (forall a, In a l -> s (fst a) = Some (snd a)) ->
  Forall2 (fun p c => s p = Some c) (map fst l) (map snd l).
Proof. intros s l. induction l as [|a l IH]; intros H; cbn [map]; constructor; [apply H; left; auto|]. apply IH. intros b Hb. apply H. right. auto. Qed.

(** Once there is a data file, its contents are returned, and nothing is changed. *)
Lemma load_present : forall s c dl net, s data = Some c -> exists s',
  leads s (load_converted d dl net) s' (Ret [c]) /\ (forall r, r <> cv_home d -> s' r = s r) /\ (s (cv_home d) <> None -> s' = s).
Proof.
  intros s c dl net Hc. pose proof ok_names as (_ & _ & _ & _ & Hdh & _).
  unfold load_converted, fetch_converted. set (k := get_data_home (cv_home d) (read_all [cv_data d] Ret)).
  destruct (leads_home (cv_home d) s (if dl then Exists (cv_data d) (fun b => if b then k else
         mkdirp (cv_dir d) (download (cv_archives d) net (read_all (map fst (cv_archives d)) (fun cs =>
           match cv_convert d cs with
           | Some c => Open (cv_data d) (write_all (cv_data d) 0 c (remove_all (map fst (cv_archives d)) k))
           | None => Raise BadData
           end)))) else k)) as (s1 & H1 & H1h & H1e & H2).
  assert (s1 data = Some c) as Hc1 by (rewrite H2; auto).
  destruct (leads_home (cv_home d) s1 (read_all [cv_data d] Ret)) as (s2 & H3 & _ & H3e & H4).
  exists s2. split; [|split].
  - eapply leads_trans; [exact H1|].
    assert (leads s1 k s2 (Ret [c])) as Hk.
    { eapply leads_trans; [exact H3|]. apply (leads_read [cv_data d] [c]). constructor; [|constructor]. rewrite H4; auto. }
    destruct dl; [|exact Hk]. eapply leads_step; [reflexivity|]. unfold data in Hc1. rewrite Hc1. exact Hk.
  - intros r Hr. rewrite H4, H2; auto.
  - intros Hh. rewrite (H3e H1h). apply H1e. exact Hh.
Qed.

(** Without a data file, the call goes through the downloads and the conversion. *)
Lemma load_absent : forall s net, s data = None -> faithful (cv_archives d) net ->
  exists s1 s2 k, leads s (load_converted d true net) s1 (Open data (write_all data 0 full (remove_all names k))) /\
    (forall n, In n names -> s1 n <> None) /\ s1 (cv_home d) <> None /\ k = get_data_home (cv_home d) (read_all [data] Ret) /\
    leads s1 (Open data (write_all data 0 full (remove_all names k))) s2 k /\ s2 data = Some full /\ s2 (cv_home d) <> None.
Proof.
  intros s net Hd Hf. pose proof ok_names as (Hn & Hdn & Hhn & Hrn & Hdh & Hdr & Hhr). destruct OK as [_ Hcv].
  unfold load_converted, fetch_converted. set (k := get_data_home (cv_home d) (read_all [cv_data d] Ret)). set (k1 := fun cs : list content => _ : prog).
  destruct (leads_home (cv_home d) s (Exists (cv_data d) (fun b => if b then k else mkdirp (cv_dir d) (download (cv_archives d) net (read_all (map fst (cv_archives d)) k1)))))
    as (sa & A1 & A1h & _ & A2).
  destruct (leads_mkdirp (cv_dir d) sa (download (cv_archives d) net (read_all (map fst (cv_archives d)) k1))) as (sb & B1 & B2).
  destruct (leads_download (cv_archives d) net sb (read_all (map fst (cv_archives d)) k1) Hn Hf) as (sc & C1 & C2 & C3).
  pose proof (leads_read _ _ sc k1 (present_published sc _ C2)) as D1. unfold k1 in D1 at 2. fold published in D1. rewrite Hcv in D1.
  assert (sa data = None) as Hda by (rewrite A2; auto).
  assert (forall n, In n names -> sc n <> None) as Hp.
  { intros n Hin. unfold names in Hin. apply in_map_iff in Hin. destruct Hin as (a & <- & Ha). rewrite (C2 a Ha). discriminate. }
  assert (sc (cv_home d) <> None) as Hh by (rewrite (C3 _ Hhn), B2; auto).
  destruct (leads_write data full [] 0 (upd sc data (Some [])) (remove_all names k) (upd_same _ _ _) eq_refl) as (se & E1 & E2 & E3).
  destruct (leads_remove names se k Hn) as (sf & F1 & F2).
  { intros p Hin. rewrite E3 by (intros ->; contradiction). rewrite upd_other by (intros ->; contradiction). apply Hp. exact Hin. }
  exists sc, sf, k. split; [|split; [|split; [|split; [|split; [|split]]]]]; auto.
  - eapply leads_trans; [exact A1|]. eapply leads_step; [reflexivity|]. unfold data in Hda. rewrite Hda. cbn [is_some].
    eapply leads_trans; [exact B1|]. eapply leads_trans; [exact C1|]. exact D1.
  - eapply leads_step; [reflexivity|]. eapply leads_trans; [exact E1|exact F1].
  - rewrite (F2 _ Hdn). exact E2.
  - rewrite (F2 _ Hhn), E3, upd_other; auto.
Qed.

Lemma load_faithful : forall s net, s data = None -> faithful (cv_archives d) net ->
  exists s', leads s (load_converted d true net) s' (Ret [full]) /\ s' data = Some full.
Proof.
  intros s net Hd Hf. destruct (load_absent s net Hd Hf) as (s1 & s2 & k & H1 & _ & _ & -> & H2 & H3 & H4).
  destruct (leads_home (cv_home d) s2 (read_all [data] Ret)) as (s3 & H5 & _ & H5e & _). rewrite (H5e H4) in H5.
  exists s2. split; [|exact H3]. eapply leads_trans; [exact H1|]. eapply leads_trans; [exact H2|]. eapply leads_trans; [exact H5|].
  apply (leads_read [data] [full]). constructor; [exact H3|constructor].
Qed.

(** *** All points of all calls *)
Definition intact (s : fs) : Prop := s data = None \/ s data = Some full.
Definition fine (s : fs) (p : prog) : Prop := (writes_to data p = false -> intact s) /\ (forall r, p = Ret r -> r = [full] /\ s data = Some full).

Lemma intact_other : forall s p c, p <> data -> intact s -> intact (upd s p c).
Proof. intros s p c Hp H. unfold intact. rewrite upd_other by auto. exact H. Qed.
Lemma fine_not_ret : forall s p, intact s -> (forall r, p <> Ret r) -> fine s p.
Proof. intros s p H Hr. split; [auto|]. intros r Hx. destruct (Hr r Hx). Qed.

Ltac point := apply always_intro; [apply fine_not_ret; [assumption|discriminate]|].

Lemma always_raise : forall s e, intact s -> always fine s (Raise e).
Proof. intros s e H. point. intros s' p' H'. discriminate. Qed.
Lemma always_ret : forall s, s data = Some full -> always fine s (Ret [full]).
Proof. intros s H. apply always_intro; [|intros s' p' H'; discriminate]. split; [intros _; right; exact H|]. intros r Hr. inversion Hr. auto. Qed.

Lemma always_home : forall s h k, h <> data -> intact s -> (forall s', intact s' -> s' data = s data -> always fine s' k) -> always fine s (get_data_home h k).
Proof.
  intros s h k Hh Hi Hk. unfold get_data_home. point. intros s1 p1 H1. inversion H1; subst s1 p1; clear H1.
  destruct (s h) as [c|] eqn:Hs; cbn [is_some]; [apply Hk; auto|]. point. intros s2 p2 H2. cbn in H2. rewrite Hs in H2. inversion H2; subst.
  apply Hk; [apply intact_other; auto|]. apply upd_other. auto.
Qed.

Lemma always_mkdirp : forall s h k, h <> data -> intact s -> (forall s', intact s' -> s' data = s data -> always fine s' k) -> always fine s (mkdirp h k).
Proof.
  intros s h k Hh Hi Hk. unfold mkdirp. point. intros s1 p1 H1. cbn in H1. destruct (s h); inversion H1; subst; apply Hk; auto.
  - apply intact_other; auto.
  - apply upd_other. auto.
Qed.

Lemma always_write_other : forall p c i s k, p <> data -> intact s -> (forall s', (forall r, r <> p -> s' r = s r) -> always fine s' k) -> always fine s (write_all p i c k).
Proof.
  intros p c. induction c as [|b c IH]; intros i s k Hp Hi Hk; cbn [write_all]; [apply Hk; auto|].
  point. intros s1 p1 H1. cbn in H1. destruct (s p) as [c0|] eqn:Hs; inversion H1; subst; apply IH; auto.
  - apply intact_other; auto.
  - intros s' Hs'. apply Hk. intros r Hr. rewrite (Hs' r Hr). apply upd_other. exact Hr.
Qed.

Lemma always_fetch : forall a c s k, fst a <> data -> intact s ->
  (forall s', s' (fst a) = Some (snd a) -> (forall r, r <> fst a -> s' r = s r) -> always fine s' k) -> always fine s (fetch_remote a c k).
Proof.
  intros a c s k Ha Hi Hk. unfold fetch_remote. point. intros s1 p1 H1. inversion H1; subst; clear H1.
  apply always_write_other; auto; [apply intact_other; auto|]. intros s' Hs'.
  assert (forall r, r <> fst a -> s' r = s r) as Hr. { intros r Hr. rewrite (Hs' r Hr). apply upd_other. exact Hr. }
  assert (intact s') as Hi' by (unfold intact; rewrite Hr by auto; exact Hi).
  point. intros s2 p2 H2. inversion H2; subst. destruct (s2 (fst a)) as [c'|] eqn:Hs2; [|apply always_raise; exact Hi'].
  destruct (list_eq_dec Nat.eq_dec c' (snd a)) as [->|]; [|apply always_raise; exact Hi']. apply Hk; auto.
Qed.

Lemma always_download : forall archives net s k, NoDup (map fst archives) -> ~ In data (map fst archives) -> intact s ->
  (forall s', (forall a, In a archives -> s' (fst a) = Some (snd a)) -> (forall r, ~ In r (map fst archives) -> s' r = s r) -> always fine s' k) ->
  always fine s (download archives net k).
Proof.
  induction archives as [|a t IH]; intros net s k Hn Hd Hi Hk; cbn [download].
  - apply Hk; [intros a []|auto].
  - inversion Hn as [|x l Hx Hn']; subst. cbn in Hd. apply always_fetch; auto. intros s1 H1 H1'.
    apply IH; auto.
    + unfold intact. rewrite H1' by auto. exact Hi.
    + intros s2 H2 H2'. apply Hk.
      * intros b [<-|Hb]; [rewrite H2' by exact Hx; exact H1|apply H2; exact Hb].
      * intros r Hr. cbn in Hr. rewrite H2', H1'; auto.
Qed.

Lemma always_read : forall ps s k, intact s -> (forall cs, Forall2 (fun p c => s p = Some c) ps cs -> always fine s (k cs)) -> always fine s (read_all ps k).
Proof.
  induction ps as [|p ps IH]; intros s k Hi Hk; cbn [read_all]; [apply Hk; constructor|].
  point. intros s1 p1 H1. inversion H1; subst; clear H1. destruct (s1 p) as [c|] eqn:Hp; [|apply always_raise; exact Hi].
  apply IH; auto.
Qed.

Lemma always_remove : forall ps s k, ~ In data ps -> intact s -> (forall s', s' data = s data -> intact s' -> always fine s' k) -> always fine s (remove_all ps k).
Proof.
  induction ps as [|p ps IH]; intros s k Hd Hi Hk; cbn [remove_all]; [apply Hk; auto|]. cbn in Hd.
  point. intros s1 p1 H1. cbn in H1. destruct (s p) eqn:Hp; inversion H1; subst; [|apply always_raise; exact Hi].
  apply IH; [tauto|apply intact_other; auto|]. intros s' H' Hi'. apply Hk; [|exact Hi']. rewrite H'. apply upd_other. auto.
Qed.

Lemma always_write_data : forall c pre i s k, s data = Some pre -> length pre = i ->
  (forall s', s' data = Some (pre ++ c) -> always fine s' k) -> always fine s (write_all data i c k).
Proof.
  induction c as [|b c IH]; intros pre i s k Hs Hi Hk; cbn [write_all]; [apply Hk; rewrite app_nil_r; exact Hs|].
  apply always_intro.
  - split; [|discriminate]. cbn. rewrite String.eqb_refl. discriminate.
  - intros s1 p1 H1. cbn in H1. rewrite Hs in H1. inversion H1; subst s1 p1. apply (IH (pre ++ [b])).
    + rewrite upd_same, (put_end _ _ _ Hi). reflexivity.
    + rewrite app_length. cbn. lia.
    + intros s' H'. apply Hk. rewrite H', <- app_assoc. reflexivity.
Qed.

Lemma always_load : forall s dl net, intact s -> always fine s (load_converted d dl net).
Proof.
  intros s dl net Hi. pose proof ok_names as (Hn & Hdn & Hhn & Hrn & Hdh & Hdr & Hhr). destruct OK as [_ Hcv].
  unfold load_converted, fetch_converted.
  assert (forall s', intact s' -> always fine s' (get_data_home (cv_home d) (read_all [cv_data d] Ret))) as Hend.
  { intros s' Hi'. apply always_home; auto. intros s'' Hi'' _. apply always_read; auto. intros cs Hcs.
    inversion Hcs as [|x y l1 l2 Hxy Hl]; subst. inversion Hl; subst. destruct Hi'' as [Hx|Hx]; unfold data in Hx; [congruence|].
    rewrite Hx in Hxy. inversion Hxy; subst. apply always_ret. exact Hx. }
  apply always_home; auto. intros s1 Hi1 Hs1. destruct dl; [|apply Hend; exact Hi1].
  point. intros s2 p2 H2. inversion H2; subst s2 p2; clear H2. destruct (s1 (cv_data d)) as [c|] eqn:Hc; cbn [is_some]; [apply Hend; exact Hi1|].
  apply always_mkdirp; auto. intros s3 Hi3 _. apply always_download; auto. intros s4 H4 H4'.
  assert (intact s4) as Hi4 by (unfold intact; rewrite (H4' _ Hdn); exact Hi3).
  apply always_read; auto. intros cs Hcs.
  assert (cs = published) as ->.
  { pose proof (present_published s4 _ H4) as HP. revert HP. fold published. generalize published. clear - Hcs.
    induction Hcs as [|p c ps cs Hp Hcs IH]; intros l HP; inversion HP; subst; [reflexivity|]. f_equal; [congruence|]. apply IH. assumption. }
  rewrite Hcv. point. intros s5 p5 H5. inversion H5; subst; clear H5.
  apply (always_write_data full [] 0); [apply upd_same|reflexivity|]. intros s6 H6. cbn in H6.
  apply always_remove; [exact Hdn|right; exact H6|]. intros s7 _ H7. apply Hend. exact H7.
Qed.

Lemma after_intact : forall s0 s, s0 data = None -> after_calls (load_converted d) (not_while_writing data) s0 s -> intact s.
Proof.
  intros s0 s H0 H. induction H as [|s dl net n s' p' H IH Hn Hw]; [left; exact H0|].
  apply (always_load s dl net IH s' p' (ex_intro _ n Hn)). exact Hw.
Qed.

(** Whatever the network served and wherever the earlier calls were interrupted, except while
    they wrote the data file, a call which returns gives the complete data, and it does return
    if the network works. *)
Theorem C66_interrupted : forall s0 s dl net s' o, s0 data = None -> after_calls (load_converted d) (not_while_writing data) s0 s ->
  exec (load_converted d dl net) s = (s', o) ->
  (forall r, o = Returned r -> r = [full]) /\
  (dl = true -> faithful (cv_archives d) net -> o = Returned [full]).
Proof.
  intros s0 s dl net s' o H0 H He. pose proof (after_intact s0 s H0 H) as Hi. split.
  - intros r ->. pose proof (exec_reached (load_converted d dl net) s) as HR. rewrite He in HR. cbn [fst snd final] in HR.
    apply (always_load s dl net Hi _ _ HR). reflexivity.
  - intros -> Hf. destruct Hi as [Hn|Hp].
    + destruct (load_faithful s net Hn Hf) as (s1 & H1 & _). rewrite (exec_leads _ _ _ _ H1) in He. inversion He. reflexivity.
    + destruct (load_present s full true net Hp) as (s1 & H1 & _). rewrite (exec_leads _ _ _ _ H1) in He. inversion He. reflexivity.
Qed.

(** Once there is a data file, whatever it contains, all calls return it. *)
Lemma always_present : forall c s dl net, s data = Some c -> always (fun s' _ => s' data = Some c) s (load_converted d dl net).
Proof.
  intros c s dl net Hc. pose proof ok_names as (_ & _ & _ & _ & Hdh & _).
  assert (forall s k, s data = Some c -> (forall s', s' data = Some c -> always (fun s' _ => s' data = Some c) s' k) ->
    always (fun s' _ => s' data = Some c) s (get_data_home (cv_home d) k)) as Hhome.
  { clear - Hdh. intros s k Hc Hk. unfold get_data_home. apply always_intro; [exact Hc|]. intros s1 p1 H1. inversion H1; subst s1 p1; clear H1.
    destruct (s (cv_home d)) eqn:Hh; cbn [is_some]; [apply Hk; exact Hc|]. apply always_intro; [exact Hc|]. intros s2 p2 H2. cbn in H2. rewrite Hh in H2.
    inversion H2; subst. apply Hk. rewrite upd_other; auto. }
  assert (forall s, s data = Some c -> always (fun s' _ => s' data = Some c) s (get_data_home (cv_home d) (read_all [cv_data d] Ret))) as Hend.
  { intros s1 H1. apply Hhome; [exact H1|]. intros s2 H2. cbn [read_all]. apply always_intro; [exact H2|]. intros s3 p3 H3. inversion H3; subst.
    unfold data in H2. rewrite H2. apply always_intro; [exact H2|]. intros s4 p4 H4. discriminate. }
  unfold load_converted, fetch_converted. apply Hhome; [exact Hc|]. intros s1 H1. destruct dl; [|apply Hend; exact H1].
  apply always_intro; [exact H1|]. intros s2 p2 H2. inversion H2; subst. unfold data in H1. rewrite H1. cbn [is_some]. apply Hend. exact H1.
Qed.

Theorem C66_cached : forall c s0 s dl net s' o, s0 data = Some c -> after_calls (load_converted d) anywhere s0 s ->
  exec (load_converted d dl net) s = (s', o) -> o = Returned [c] /\ s' data = Some c.
Proof.
  intros c s0 s dl net s' o H0 H He.
  assert (s data = Some c) as Hs.
  { clear He. induction H as [|s dl0 net0 n s1 p1 H IH Hn _]; [exact H0|]. apply (always_present c s dl0 net0 IH s1 p1). exists n. exact Hn. }
  destruct (load_present s c dl net Hs) as (s1 & H1 & H2 & _). rewrite (exec_leads _ _ _ _ H1) in He. inversion He; subst. split; [reflexivity|].
  rewrite H2; [exact Hs|]. apply ok_names.
Qed.

(** The property is false when a call is interrupted while it writes the data file: for every
    proper prefix of the data there is such a call, and all later calls, with any network, return
    this prefix. *)
Theorem C66_truncated_refuted : forall part rest s0 net, full = part ++ rest -> rest <> [] -> s0 data = None -> faithful (cv_archives d) net ->
  exists n s1 p1, steps n s0 (load_converted d true net) = (s1, p1) /\
    forall s dl net' s' o, after_calls (load_converted d) anywhere s1 s -> exec (load_converted d dl net') s = (s', o) ->
      o = Returned [part] /\ o <> Returned [full].
Proof.
  intros part rest s0 net Hfull Hrest H0 Hf. destruct (load_absent s0 net H0 Hf) as (sa & _ & k & H1 & _).
  destruct (leads_write_part data part rest sa (remove_all names k)) as (s1 & H2 & H3 & _). rewrite <- Hfull in H2.
  destruct (leads_trans _ _ _ _ _ _ H1 H2) as [n Hn]. exists n, s1, (write_all data (length part) rest (remove_all names k)). split; [exact Hn|].
  intros s dl net' s' o Ha He. destruct (C66_cached part s1 s dl net' s' o H3 Ha He) as [-> _]. split; [reflexivity|].
  intros Hx. inversion Hx as [Hp]. rewrite Hfull in Hp. apply Hrest. rewrite <- (app_nil_r part) in Hp at 1. apply app_inv_head in Hp. auto.
Qed.

(** Without the data and without permission to download, the error is FileNotFoundError, and
    nothing is created but the home directory. *)
Theorem C66_offline : forall s net, s data = None -> exists s', exec (load_converted d false net) s = (s', Raised NotFound) /\
  forall r, r <> cv_home d -> s' r = s r.
Proof.
  intros s net Hd. pose proof ok_names as (_ & _ & _ & _ & Hdh & _). unfold load_converted, fetch_converted.
  destruct (leads_home (cv_home d) s (get_data_home (cv_home d) (read_all [cv_data d] Ret))) as (s1 & H1 & H1h & _ & H1r).
  destruct (leads_home (cv_home d) s1 (read_all [cv_data d] Ret)) as (s2 & H2 & _ & H2e & _). rewrite (H2e H1h) in H2.
  exists s1. split; [|exact H1r]. rewrite (exec_leads _ _ _ _ (leads_trans _ _ _ _ _ _ H1 H2)). cbn [read_all exec].
  unfold data in Hd. rewrite H1r, Hd by exact Hdh. reflexivity.
Qed.

(** ** C67: concurrent calls *)
Lemma load_quiet : forall c s dl net, s data = Some c -> s (cv_home d) <> None -> quiet [c] s (load_converted d dl net).
Proof.
  intros c s dl net Hc Hh.
  assert (quiet [c] s (get_data_home (cv_home d) (read_all [cv_data d] Ret))) as Hend.
  { apply quiet_home; [exact Hh|]. apply (quiet_read [c]); [constructor; [exact Hc|constructor]|apply quiet_ret]. }
  unfold load_converted, fetch_converted. apply quiet_home; [exact Hh|]. destruct dl; [|exact Hend]. apply quiet_intro; try discriminate.
  intros s' p' H. inversion H; subst. split; [reflexivity|]. unfold data in Hc. rewrite Hc. exact Hend.
Qed.

(** When the data is there, any number of calls at the same time, in any order of their
    operations, return it: no call that is over has raised or returned anything else. *)
Theorem C67_concurrent : forall c s calls schedule s' ps', s data = Some c -> s (cv_home d) <> None ->
  psteps schedule s (map (fun a => load_converted d (fst a) (snd a)) calls) = (s', ps') ->
  s' = s /\ forall p, In p ps' -> (forall r, p = Ret r -> r = [c]) /\ (forall e, p <> Raise e).
Proof.
  intros c s calls schedule s' ps' Hc Hh H. apply (quiet_psteps [c] s schedule _ s' ps') in H; [exact H|].
  apply Forall_forall. intros p Hp. apply in_map_iff in Hp. destruct Hp as (a & <- & _). apply load_quiet; auto.
Qed.

(** It is false when the data is not there: while a call writes the data file, another one
    returns the part which is written. *)
Theorem C67_truncated_refuted : forall part rest s0 net dl net', full = part ++ rest -> rest <> [] -> s0 data = None -> faithful (cv_archives d) net ->
  exists schedule s' p', psteps schedule s0 [load_converted d true net; load_converted d dl net'] = (s', [p'; Ret [part]]) /\ part <> full.
Proof.
  intros part rest s0 net dl net' Hfull Hrest H0 Hf. destruct (load_absent s0 net H0 Hf) as (sa & _ & k & H1 & _).
  destruct (leads_write_part data part rest sa (remove_all names k)) as (s1 & H2 & H3 & _). rewrite <- Hfull in H2.
  destruct (leads_trans _ _ _ _ _ _ H1 H2) as [n Hn]. destruct (load_present s1 part dl net' H3) as (s2 & [m Hm] & _).
  exists (repeat 0 n ++ repeat 1 m), s2, (write_all data (length part) rest (remove_all names k)). split.
  - rewrite psteps_app, (psteps_alone n 0 s0 [load_converted d true net; load_converted d dl net'] _ _ _ eq_refl Hn). cbn [set_nth].
    apply (psteps_alone m 1 s1 [_; load_converted d dl net'] _ _ _ eq_refl Hm).
  - intros Hx. rewrite Hfull in Hx. apply Hrest. rewrite <- (app_nil_r part) in Hx at 1. apply app_inv_head in Hx. auto.
Qed.
End Converted.

(** ** Datasets used as they are downloaded *)
Section Direct.
Context (d : direct).
Let names := map fst (di_archives d).
Let published := map snd (di_archives d).
Definition direct_ok : Prop := NoDup (di_home d :: di_dir d :: names).
Context (OK : direct_ok).

Lemma direct_names : NoDup names /\ ~ In (di_home d) names /\ ~ In (di_dir d) names /\ di_home d <> di_dir d.
Proof.
  inversion OK as [|h1 l1 A1 B1]; subst. inversion B1 as [|h2 l2 A2 B2]; subst. cbn in A1. cbn in A2. unfold names. cbn.
  repeat split; intuition congruence.
Qed.

Lemma direct_all_present : forall s cs dl net, Forall2 (fun p c => s p = Some c) names cs -> exists s',
  leads s (load_direct d dl net) s' (Ret cs) /\ forall r, r <> di_home d -> s' r = s r.
Proof.
  intros s cs dl net Hcs. pose proof direct_names as (Hn & Hh & _). unfold load_direct, fetch_direct. set (k := get_data_home (di_home d) (read_all (map fst (di_archives d)) Ret)).
  destruct (leads_home (di_home d) s (if dl then Exists (fst (di_first d)) (fun b => if b then k else mkdirp (di_dir d) (download (di_archives d) net k)) else k))
    as (s1 & H1 & H1h & _ & H2).
  destruct (leads_home (di_home d) s1 (read_all (map fst (di_archives d)) Ret)) as (s2 & H3 & _ & H3e & _). rewrite (H3e H1h) in H3.
  assert (Forall2 (fun p c => s1 p = Some c) names cs) as Hcs1.
  { revert Hh. clear - Hcs H2. intros Hh. induction Hcs as [|p c ps cs Hp Hcs IH]; constructor.
    - rewrite H2; [exact Hp|]. intros ->. apply Hh. left. reflexivity.
    - apply IH. intros Hx. apply Hh. right. exact Hx. }
  exists s1. split; [|exact H2]. eapply leads_trans; [exact H1|].
  assert (leads s1 k s1 (Ret cs)) as Hk by (eapply leads_trans; [exact H3|]; apply leads_read; exact Hcs1).
  destruct dl; [|exact Hk]. eapply leads_step; [reflexivity|]. unfold names in Hcs1. cbn in Hcs1. inversion Hcs1; subst. rewrite H4. exact Hk.
Qed.

(** If the first call is whole and the network works, this call and the next ones return the
    published archives. *)
Theorem C66_direct : forall s net, s (fst (di_first d)) = None -> faithful (di_archives d) net ->
  exists s', exec (load_direct d true net) s = (s', Returned published) /\
    forall dl net', exists s'', exec (load_direct d dl net') s' = (s'', Returned published).
Proof.
  intros s net H0 Hf. pose proof direct_names as (Hn & Hh & Hr & Hhr). pose (k := get_data_home (di_home d) (read_all (map fst (di_archives d)) Ret)).
  destruct (leads_home (di_home d) s (Exists (fst (di_first d)) (fun b => if b then k else mkdirp (di_dir d) (download (di_archives d) net k))))
    as (s1 & A1 & A2 & _ & A3).
  destruct (leads_mkdirp (di_dir d) s1 (download (di_archives d) net k)) as (s2 & B1 & B2).
  destruct (leads_download (di_archives d) net s2 k Hn Hf) as (s3 & C1 & C2 & C3).
  assert (s3 (di_home d) <> None) as Hhome by (rewrite (C3 _ Hh), B2; auto).
  destruct (leads_home (di_home d) s3 (read_all (map fst (di_archives d)) Ret)) as (s4 & D1 & _ & D2 & _). rewrite (D2 Hhome) in D1.
  assert (Forall2 (fun p c => s3 p = Some c) names published) as HP.
  { unfold names, published. clear - C2. induction (di_archives d) as [|a l IH]; cbn [map]; constructor; [apply C2; left; auto|]. apply IH. intros b Hb. apply C2. right. auto. }
  exists s3. split.
  - assert (leads s (load_direct d true net) s3 (Ret published)) as HL.
    { unfold load_direct, fetch_direct. eapply leads_trans; [exact A1|]. eapply leads_step; [reflexivity|]. rewrite A3, H0 by (intros Hx; apply Hh; rewrite <- Hx; left; reflexivity). cbn [is_some].
      eapply leads_trans; [exact B1|]. eapply leads_trans; [exact C1|]. eapply leads_trans; [exact D1|]. apply leads_read. exact HP. }
    rewrite (exec_leads _ _ _ _ HL). reflexivity.
  - intros dl net'. destruct (direct_all_present s3 published dl net' HP) as (s5 & H5 & _). exists s5. rewrite (exec_leads _ _ _ _ H5). reflexivity.
Qed.

(** The property is false when the network serves something else: the first call raises because
    of the checksum, and the next ones return what was served. *)
Theorem C66_checksum_refuted : forall s net, di_others d = [] -> s (fst (di_first d)) = None -> net (fst (di_first d)) <> snd (di_first d) ->
  exists s', exec (load_direct d true net) s = (s', Raised BadChecksum) /\
    forall dl net', exists s'', exec (load_direct d dl net') s' = (s'', Returned [net (fst (di_first d))]).
Proof.
  intros s net Ho H0 Hb. pose proof direct_names as (Hn & Hh & Hr & Hhr). pose (k := get_data_home (di_home d) (read_all (map fst (di_archives d)) Ret)).
  destruct (leads_home (di_home d) s (Exists (fst (di_first d)) (fun b => if b then k else mkdirp (di_dir d) (download (di_archives d) net k))))
    as (s1 & A1 & A2 & _ & A3).
  destruct (leads_mkdirp (di_dir d) s1 (download (di_archives d) net k)) as (s2 & B1 & B2).
  destruct (leads_fetch (di_first d) (net (fst (di_first d))) s2 (download (di_others d) net k)) as (s3 & C1 & C2 & C3).
  destruct (list_eq_dec Nat.eq_dec _ _) as [He|_] in C3; [contradiction|]. exists s3. split.
  - assert (leads s (load_direct d true net) s3 (Raise BadChecksum)) as HL.
    { unfold load_direct, fetch_direct. eapply leads_trans; [exact A1|]. eapply leads_step; [reflexivity|]. rewrite A3, H0 by (intros Hx; apply Hh; rewrite <- Hx; left; reflexivity). cbn [is_some].
      eapply leads_trans; [exact B1|]. exact C3. }
    rewrite (exec_leads _ _ _ _ HL). reflexivity.
  - intros dl net'. destruct (direct_all_present s3 [net (fst (di_first d))] dl net') as (s5 & H5 & _).
    + unfold names, di_archives. rewrite Ho. cbn. constructor; [exact C1|constructor].
    + exists s5. rewrite (exec_leads _ _ _ _ H5). reflexivity.
Qed.

(** The property is false when there is a second archive and the first call is interrupted
    between the two downloads: all later calls raise FileNotFoundError. *)
Lemma others_absent : forall s dl net, s (fst (di_first d)) <> None -> (exists b, In b (di_others d) /\ s (fst b) = None) ->
  (exists s', exec (load_direct d dl net) s = (s', Raised NotFound)) /\
  always (fun s' _ => forall r, r <> di_home d -> s' r = s r) s (load_direct d dl net).
Proof.
  intros s dl net H1 (b & Hb & H2). pose proof direct_names as (Hn & Hh & Hr & Hhr).
  assert (forall s' k, (forall r, r <> di_home d -> s' r = s r) -> (forall s', (forall r, r <> di_home d -> s' r = s r) -> always (fun s' _ => forall r, r <> di_home d -> s' r = s r) s' k) ->
    always (fun s' _ => forall r, r <> di_home d -> s' r = s r) s' (get_data_home (di_home d) k)) as Hhome.
  { intros s' k Hs' Hk. unfold get_data_home. apply always_intro; [exact Hs'|]. intros sa pa Ha. inversion Ha; subst sa pa; clear Ha.
    destruct (s' (di_home d)) eqn:He; cbn [is_some]; [apply Hk; exact Hs'|]. apply always_intro; [exact Hs'|]. intros sa pa Ha. cbn in Ha. rewrite He in Ha.
    inversion Ha; subst. apply Hk. intros r Hne. rewrite upd_other by exact Hne. apply Hs'. exact Hne. }
  assert (forall ps k s', (forall r, r <> di_home d -> s' r = s r) -> (forall cs, always (fun s' _ => forall r, r <> di_home d -> s' r = s r) s' (k cs)) ->
    always (fun s' _ => forall r, r <> di_home d -> s' r = s r) s' (read_all ps k)) as Hread.
  { clear. induction ps as [|p ps IH]; intros k s' Hs' Hk; cbn [read_all]; [apply Hk|]. apply always_intro; [exact Hs'|]. intros sa pa Ha. inversion Ha; subst.
    destruct (sa p); [apply IH; auto|]. apply always_intro; [exact Hs'|]. intros; discriminate. }
  assert (forall s', (forall r, r <> di_home d -> s' r = s r) ->
    always (fun s' _ => forall r, r <> di_home d -> s' r = s r) s' (get_data_home (di_home d) (read_all (map fst (di_archives d)) Ret))) as Hend.
  { intros s' Hs'. apply Hhome; [exact Hs'|]. intros s'' Hs''. apply Hread; [exact Hs''|]. intros cs. apply always_intro; [exact Hs''|]. intros; discriminate. }
  assert (forall ps k s', (exists p, In p ps /\ s' p = None) -> exec (read_all ps k) s' = (s', Raised NotFound)) as Hraise.
  { clear. induction ps as [|p ps IH]; intros k s' (q & Hq & Hs); [destruct Hq|]. cbn [read_all exec]. destruct (s' p) eqn:He; [|reflexivity].
    apply IH. exists q. destruct Hq as [->|Hq]; [congruence|auto]. }
  assert (fst (di_first d) <> di_home d) as Hfh by (intros Hx; apply Hh; rewrite <- Hx; left; reflexivity).
  assert (fst b <> di_home d) as Hbh by (intros Hx; apply Hh; rewrite <- Hx; right; apply in_map; exact Hb).
  split.
  - unfold load_direct, fetch_direct. set (k := get_data_home (di_home d) (read_all (map fst (di_archives d)) Ret)).
    destruct (leads_home (di_home d) s (if dl then Exists (fst (di_first d)) (fun b => if b then k else mkdirp (di_dir d) (download (di_archives d) net k)) else k))
      as (s1 & A1 & A2 & _ & A3).
    destruct (leads_home (di_home d) s1 (read_all (map fst (di_archives d)) Ret)) as (s2 & B1 & _ & B2 & _). rewrite (B2 A2) in B1.
    exists s1. rewrite (exec_leads _ _ _ _ A1).
    assert (exec k s1 = (s1, Raised NotFound)) as Hk.
    { unfold k. rewrite (exec_leads _ _ _ _ B1). apply Hraise. exists (fst b). split; [right; apply in_map; exact Hb|]. rewrite A3; auto. }
    destruct dl; [|exact Hk]. cbn [exec]. rewrite A3 by exact Hfh. destruct (s (fst (di_first d))); [exact Hk|contradiction].
  - unfold load_direct, fetch_direct. apply Hhome; [auto|]. intros s1 Hs1. destruct dl; [|apply Hend; exact Hs1].
    apply always_intro; [exact Hs1|]. intros s2 p2 Hp. inversion Hp; subst s2 p2. rewrite Hs1 by exact Hfh.
    destruct (s (fst (di_first d))); [apply Hend; exact Hs1|contradiction].
Qed.

Theorem C66_second_archive_refuted : forall s0 net, di_others d <> [] -> absent s0 names -> faithful (di_archives d) net ->
  exists n s1 p1, steps n s0 (load_direct d true net) = (s1, p1) /\
    forall s dl net', after_calls (load_direct d) anywhere s1 s -> exists s', exec (load_direct d dl net') s = (s', Raised NotFound).
Proof.
  intros s0 net Ho H0 Hf. pose proof direct_names as (Hn & Hh & Hr & Hhr). pose (k := get_data_home (di_home d) (read_all (map fst (di_archives d)) Ret)).
  destruct (leads_home (di_home d) s0 (Exists (fst (di_first d)) (fun b => if b then k else mkdirp (di_dir d) (download (di_archives d) net k))))
    as (s1 & A1 & A2 & _ & A3).
  destruct (leads_mkdirp (di_dir d) s1 (download (di_archives d) net k)) as (s2 & B1 & B2).
  destruct (leads_fetch (di_first d) (net (fst (di_first d))) s2 (download (di_others d) net k)) as (s3 & C1 & C2 & C3).
  rewrite (Hf (di_first d) (or_introl eq_refl)) in C1, C3. destruct (list_eq_dec Nat.eq_dec _ _) as [_|He] in C3; [|contradiction].
  assert (leads s0 (load_direct d true net) s3 (download (di_others d) net k)) as [n HL].
  { unfold load_direct, fetch_direct. eapply leads_trans; [exact A1|]. eapply leads_step; [reflexivity|].
    rewrite A3, H0 by first [left; reflexivity | intros Hx; apply Hh; rewrite <- Hx; left; reflexivity]. cbn [is_some].
    eapply leads_trans; [exact B1|]. cbn [di_archives download]. rewrite (Hf (di_first d) (or_introl eq_refl)). exact C3. }
  exists n, s3, (download (di_others d) net k). split; [exact HL|].
  destruct (di_others d) as [|b others] eqn:Ho'; [contradiction|].
  assert (In (fst b) names) as Hin by (unfold names, di_archives; rewrite Ho'; right; left; reflexivity).
  assert (fst b <> fst (di_first d)) as Hbf.
  { intros Hx. unfold names, di_archives in Hn. rewrite Ho' in Hn. cbn in Hn. inversion Hn as [|x l X1 X2]; subst. apply X1. left. exact Hx. }
  intros s dl net' Ha.
  assert (forall r, r <> di_home d -> s r = s3 r) as Hsame.
  { induction Ha as [|s dl0 net0 m s4 p4 Ha IH Hm _]; [auto|]. intros r Hne. rewrite <- (IH r Hne).
    destruct (others_absent s dl0 net0) as [_ HA]; [| |exact (HA s4 p4 (ex_intro _ m Hm) r Hne)].
    - rewrite IH, C1; [discriminate|]. intros Hx; apply Hh; rewrite <- Hx; left; reflexivity.
    - exists b. rewrite Ho'. split; [left; reflexivity|]. rewrite IH, C2, B2, A3, H0; auto; intros Hx; [apply Hh|apply Hr|apply Hh]; rewrite <- Hx; exact Hin. }
  destruct (others_absent s dl net') as [HA _]; [| |exact HA].
  - rewrite Hsame, C1; [discriminate|]. intros Hx; apply Hh; rewrite <- Hx; left; reflexivity.
  - exists b. rewrite Ho'. split; [left; reflexivity|]. rewrite Hsame, C2, B2, A3, H0; auto; intros Hx; [apply Hh|apply Hr|apply Hh]; rewrite <- Hx; exact Hin.
Qed.

(** When the archives are there, concurrent calls return them. *)
Theorem C67_direct_concurrent : forall cs s calls schedule s' ps', Forall2 (fun p c => s p = Some c) names cs -> s (di_home d) <> None ->
  psteps schedule s (map (fun a => load_direct d (fst a) (snd a)) calls) = (s', ps') ->
  s' = s /\ forall p, In p ps' -> (forall r, p = Ret r -> r = cs) /\ (forall e, p <> Raise e).
Proof.
  intros cs s calls schedule s' ps' Hc Hh H. apply (quiet_psteps cs s schedule _ s' ps') in H; [exact H|].
  apply Forall_forall. intros p Hp. apply in_map_iff in Hp. destruct Hp as (a & <- & _). unfold load_direct, fetch_direct.
  assert (quiet cs s (get_data_home (di_home d) (read_all (map fst (di_archives d)) Ret))) as Hend.
  { apply quiet_home; [exact Hh|]. apply (quiet_read cs); [exact Hc|apply quiet_ret]. }
  apply quiet_home; [exact Hh|]. destruct (fst a); [|exact Hend]. apply quiet_intro; try discriminate.
  intros s1 p1 Hs. inversion Hs; subst. split; [reflexivity|]. unfold names in Hc. cbn in Hc. inversion Hc; subst. rewrite H2. exact Hend.
Qed.

(** *** The bank dataset *)
Context (unpacked : path) (unzip : content -> option content).
Context (U1 : unpacked <> di_home d) (U2 : unpacked <> fst (di_first d)).
Let archive := fst (di_first d).

Lemma bank_present : forall s c dl net, s archive = Some c ->
  always (fun s' _ => s' archive = Some c) s (load_bank d unpacked unzip dl net) /\
  (forall u, unzip c = Some u -> exists s', exec (load_bank d unpacked unzip dl net) s = (s', Returned [u])).
Proof.
  intros s c dl net Hc. pose proof direct_names as (_ & Hh & _).
  assert (archive <> di_home d) as Hah by (intros Hx; apply Hh; rewrite <- Hx; left; reflexivity).
  assert (forall s k, s archive = Some c -> (forall s', s' archive = Some c -> always (fun s' _ => s' archive = Some c) s' k) ->
    always (fun s' _ => s' archive = Some c) s (get_data_home (di_home d) k)) as Hhome.
  { clear - Hah. intros s k Hc Hk. unfold get_data_home. apply always_intro; [exact Hc|]. intros s1 p1 H1. inversion H1; subst s1 p1; clear H1.
    destruct (s (di_home d)) eqn:Hs; cbn [is_some]; [apply Hk; exact Hc|]. apply always_intro; [exact Hc|]. intros s2 p2 H2. cbn in H2. rewrite Hs in H2.
    inversion H2; subst. apply Hk. rewrite upd_other; auto. }
  assert (forall u i s k, s archive = Some c -> (forall s', s' archive = Some c -> always (fun s' _ => s' archive = Some c) s' k) ->
    always (fun s' _ => s' archive = Some c) s (write_all unpacked i u k)) as Hwrite.
  { clear - U2. induction u as [|b u IH]; intros i s k Hc Hk; cbn [write_all]; [apply Hk; exact Hc|]. apply always_intro; [exact Hc|].
    intros s1 p1 H1. cbn in H1. destruct (s unpacked); inversion H1; subst; apply IH; auto. rewrite upd_other; auto. }
  unfold load_bank, fetch_direct. set (k := get_data_home (di_home d) (read_all [fst (di_first d)] _)). split.
  - assert (forall s, s archive = Some c -> always (fun s' _ => s' archive = Some c) s k) as Hk.
    { intros s1 H1. apply Hhome; [exact H1|]. intros s2 H2. cbn [read_all]. apply always_intro; [exact H2|]. intros s3 p3 H3. inversion H3; subst.
      unfold archive in H2. rewrite H2. cbn [hd]. destruct (unzip c) as [u|]; [|apply always_intro; [exact H2|discriminate]].
      apply always_intro; [exact H2|]. intros s4 p4 H4. inversion H4; subst. apply Hwrite; [rewrite upd_other; auto|]. intros s5 H5. cbn [read_all].
      apply always_intro; [exact H5|]. intros s6 p6 H6. inversion H6; subst. destruct (s6 unpacked) eqn:Hu; [|apply always_intro; [exact H5|discriminate]].
      cbn [remove_all]. apply always_intro; [exact H5|]. intros s7 p7 H7. cbn in H7. rewrite Hu in H7. inversion H7; subst.
      apply always_intro; [rewrite upd_other; auto|discriminate]. }
    apply Hhome; [exact Hc|]. intros s1 H1. destruct dl; [|apply Hk; exact H1]. apply always_intro; [exact H1|]. intros s2 p2 H2. inversion H2; subst.
    unfold archive in H1. rewrite H1. cbn [is_some]. apply Hk. exact H1.
  - intros u Hu.
    destruct (leads_home (di_home d) s (if dl then Exists (fst (di_first d)) (fun b => if b then k else mkdirp (di_dir d) (download (di_archives d) net k)) else k))
      as (s1 & A1 & A2 & _ & A3).
    assert (s1 archive = Some c) as Hc1 by (rewrite A3; auto).
    assert (exists s', exec k s1 = (s', Returned [u])) as (s' & Hk).
    { unfold k. match goal with |- context [get_data_home _ ?k'] => destruct (leads_home (di_home d) s1 k') as (s2 & B1 & _ & B2 & _) end.
      rewrite (B2 A2) in B1. rewrite (exec_leads _ _ _ _ B1). cbn [read_all exec]. unfold archive in Hc1. rewrite Hc1. cbn [hd]. rewrite Hu. cbn [exec].
      match goal with |- context [write_all _ _ _ ?k'] => destruct (leads_write unpacked u [] 0 (upd s1 unpacked (Some [])) k' (upd_same _ _ _) eq_refl) as (s3 & C1 & C2 & _) end.
      rewrite (exec_leads _ _ _ _ C1). cbn [read_all exec remove_all]. rewrite C2. cbn [exec remove_all]. rewrite C2. eexists. reflexivity. }
    exists s'. rewrite (exec_leads _ _ _ _ A1). destruct dl; [|exact Hk]. cbn [exec]. unfold archive in Hc1. rewrite Hc1. exact Hk.
Qed.

(** Once the archive is there, all calls return what it unpacks to, wherever earlier calls
    were interrupted. *)
Theorem C66_bank : forall c u s0 s dl net, s0 archive = Some c -> unzip c = Some u -> after_calls (load_bank d unpacked unzip) anywhere s0 s ->
  exists s', exec (load_bank d unpacked unzip dl net) s = (s', Returned [u]).
Proof.
  intros c u s0 s dl net H0 Hu H.
  assert (s archive = Some c) as Hs.
  { induction H as [|s dl0 net0 n s1 p1 H IH Hn _]; [exact H0|]. apply (proj1 (bank_present s c dl0 net0 IH) s1 p1). exists n. exact Hn. }
  apply (proj2 (bank_present s c dl net Hs) u Hu).
Qed.
End Direct.

(** ** Concrete datasets

    The names of the files are those of _car.py, _adult.py, _epsilon.py and _bank.py. *)
Local Open Scope string_scope.
Local Open Scope list_scope.
Definition empty_disk : fs := fun _ => None.
Definition car : converted :=
  mkConverted "wildwood_data" "car" "car.csv.gz" [("car.data", [1; 2; 3])] (fun cs => match cs with [c] => Some (7 :: c) | _ => None end).
Definition adult : converted :=
  mkConverted "wildwood_data" "adult" "adult.csv.gz" [("adult_train", [1; 2]); ("adult_test", [3])]
    (fun cs => match cs with [c1; c2] => Some (c1 ++ c2) | _ => None end).
Definition epsilon : direct := mkDirect "wildwood_data" "epsilon" ("epsilon_normalized.bz2", [1; 2]) [("epsilon_normalized.t.bz2", [3])].
Definition bank : direct := mkDirect "wildwood_data" "bank" ("bank.zip", [1; 2]) [].
Definition unzip (c : content) : option content := match c with 1 :: t => Some (5 :: t) | _ => None end.
Definition serves (l : list (path * content)) : path -> content := fun p =>
  match find (fun a => String.eqb (fst a) p) l with Some a => snd a | None => [] end.

Ltac distinct := repeat constructor; cbn; intuition discriminate.
Lemma car_ok : converted_ok car [7; 1; 2; 3].
Proof. split; [distinct|reflexivity]. Qed.
Lemma adult_ok : converted_ok adult [1; 2; 3].
Proof. split; [distinct|reflexivity]. Qed.
Lemma epsilon_ok : direct_ok epsilon.
Proof. distinct. Qed.
Lemma bank_ok : direct_ok bank.
Proof. distinct. Qed.
Lemma serves_adult : faithful (cv_archives adult) (serves (cv_archives adult)).
Proof. intros a [<-|[<-|[]]]; reflexivity. Qed.
Lemma serves_epsilon : faithful (di_archives epsilon) (serves (di_archives epsilon)).
Proof. intros a [<-|[<-|[]]]; reflexivity. Qed.

(** A call which is served a wrong test file, a call which is interrupted between the two
    downloads, then a whole one. *)
Example C66_interrupted_applies :
  let wrong := fun p => if String.eqb p "adult_test" then [4] else serves (cv_archives adult) p in
  let s1 := fst (steps 50 empty_disk (load_converted adult true wrong)) in
  let s2 := fst (steps 6 s1 (load_converted adult true (serves (cv_archives adult)))) in
  snd (exec (load_converted adult true wrong) empty_disk) = Raised BadChecksum /\
  after_calls (load_converted adult) (not_while_writing "adult.csv.gz") empty_disk s2 /\
  s2 "adult_train" = Some [1; 2] /\ s2 "adult_test" = Some [4] /\ s2 "adult.csv.gz" = None /\
  snd (exec (load_converted adult true (serves (cv_archives adult))) s2) = Returned [[1; 2; 3]].
Proof.
  intros wrong s1 s2. split; [reflexivity|]. split; [|repeat split; reflexivity].
  apply (after_call _ _ _ s1 true (serves (cv_archives adult)) 6 s2 (snd (steps 6 s1 (load_converted adult true (serves (cv_archives adult)))))); [|apply surjective_pairing|reflexivity].
  apply (after_call _ _ _ empty_disk true wrong 50 s1 (snd (steps 50 empty_disk (load_converted adult true wrong)))); [constructor|apply surjective_pairing|reflexivity].
Qed.

(** The whole story for the truncated file. *)
Example C66_truncated_applies : exists n s1 p1, steps n empty_disk (load_converted adult true (serves (cv_archives adult))) = (s1, p1) /\
  forall s dl net' s' o, after_calls (load_converted adult) anywhere s1 s -> exec (load_converted adult dl net') s = (s', o) ->
    o = Returned [[1; 2]] /\ o <> Returned [[1; 2; 3]].
Proof. apply (C66_truncated_refuted adult [1; 2; 3] adult_ok [1; 2] [3]); [reflexivity|discriminate|reflexivity|apply serves_adult]. Qed.

Example C66_cached_applies :
  let s := fst (exec (load_converted adult true (serves (cv_archives adult))) empty_disk) in
  s "adult.csv.gz" = Some [1; 2; 3] /\ s "adult_train" = None /\ snd (exec (load_converted adult false (fun _ => [])) s) = Returned [[1; 2; 3]].
Proof. repeat split; reflexivity. Qed.

Example C66_direct_applies : exists s', exec (load_direct epsilon true (serves (di_archives epsilon))) empty_disk = (s', Returned [[1; 2]; [3]]) /\
  forall dl net', exists s'', exec (load_direct epsilon dl net') s' = (s'', Returned [[1; 2]; [3]]).
Proof. apply (C66_direct epsilon epsilon_ok empty_disk (serves (di_archives epsilon))); [reflexivity|apply serves_epsilon]. Qed.
Example C66_checksum_applies : exists s', exec (load_direct bank true (fun _ => [1; 4])) empty_disk = (s', Raised BadChecksum) /\
  forall dl net', exists s'', exec (load_direct bank dl net') s' = (s'', Returned [[1; 4]]).
Proof. apply (C66_checksum_refuted bank bank_ok empty_disk (fun _ => [1; 4])); [reflexivity|reflexivity|discriminate]. Qed.
Example C66_second_archive_applies : exists n s1 p1, steps n empty_disk (load_direct epsilon true (serves (di_archives epsilon))) = (s1, p1) /\
  forall s dl net', after_calls (load_direct epsilon) anywhere s1 s -> exists s', exec (load_direct epsilon dl net') s = (s', Raised NotFound).
Proof. apply (C66_second_archive_refuted epsilon epsilon_ok); [discriminate|intros p _; reflexivity|apply serves_epsilon]. Qed.
Example C66_bank_applies :
  let s0 := fst (exec (load_bank bank "bank-full.csv" unzip true (serves (di_archives bank))) empty_disk) in
  let s1 := fst (steps 5 s0 (load_bank bank "bank-full.csv" unzip true (fun _ => []))) in
  s0 "bank.zip" = Some [1; 2] /\ s1 "bank-full.csv" = Some [] /\
  after_calls (load_bank bank "bank-full.csv" unzip) anywhere s0 s1 /\
  snd (exec (load_bank bank "bank-full.csv" unzip true (fun _ => [])) s1) = Returned [[5; 2]].
Proof.
  intros s0 s1. repeat split; try reflexivity.
  apply (after_call _ _ _ s0 true (fun _ => []) 5 s1 (snd (steps 5 s0 (load_bank bank "bank-full.csv" unzip true (fun _ => []))))); [constructor|apply surjective_pairing|exact I].
Qed.

Example C67_applies :
  let s := fst (exec (load_converted adult true (serves (cv_archives adult))) empty_disk) in
  snd (psteps [0; 1; 1; 0; 0; 0; 1; 1; 1] s [load_converted adult true (fun _ => []); load_converted adult false (fun _ => [])])
  = [Ret [[1; 2; 3]]; Ret [[1; 2; 3]]].
Proof. reflexivity. Qed.

(** Two first calls at the same time, with a network which works: one of them removes the
    temporary files of the other, which raises FileNotFoundError. *)
Theorem C67_removed_refuted : exists schedule,
  snd (psteps schedule empty_disk [load_converted car true (serves (cv_archives car)); load_converted car true (serves (cv_archives car))])
  = [Ret [[7; 1; 2; 3]]; Raise NotFound].
Proof. exists ([1; 1; 1; 0; 0] ++ repeat 1 12 ++ repeat 0 40 ++ repeat 1 40). reflexivity. Qed.

(** Both create the directory of all datasets. *)
Theorem C67_home_refuted : exists schedule,
  snd (psteps schedule empty_disk [load_converted car true (serves (cv_archives car)); load_converted adult true (serves (cv_archives adult))])
  = [Ret [[7; 1; 2; 3]]; Raise AlreadyExists].
Proof. exists ([0; 1; 0; 1] ++ repeat 0 40). reflexivity. Qed.

(** The bank dataset: even when the archive is there, one call reads the file which the other
    is unpacking. *)
Theorem C67_bank_refuted : exists s schedule s',
  exec (load_bank bank "bank-full.csv" unzip true (serves (di_archives bank))) empty_disk = (s, Returned [[5; 2]]) /\
  psteps schedule s [load_bank bank "bank-full.csv" unzip true (serves (di_archives bank)); load_bank bank "bank-full.csv" unzip true (serves (di_archives bank))]
  = (s', [Ret [[]]; Raise NotFound]).
Proof.
  exists (fst (exec (load_bank bank "bank-full.csv" unzip true (serves (di_archives bank))) empty_disk)), (repeat 0 7 ++ repeat 1 5 ++ repeat 0 40 ++ repeat 1 40).
  eexists. split; [rewrite (surjective_pairing (exec _ _)); reflexivity|]. vm_compute. reflexivity.
Qed.

Print Assumptions C66_interrupted.
Print Assumptions C66_cached.
Print Assumptions C66_truncated_refuted.
Print Assumptions C66_offline.
Print Assumptions C66_direct.
Print Assumptions C66_checksum_refuted.
Print Assumptions C66_second_archive_refuted.
Print Assumptions C67_concurrent.
Print Assumptions C66_bank.
Print Assumptions C67_truncated_refuted.
Print Assumptions C67_direct_concurrent.
Print Assumptions C67_removed_refuted.
Print Assumptions C67_home_refuted.
Print Assumptions C67_bank_refuted.
