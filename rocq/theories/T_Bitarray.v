(** * Property theorems: packed features (C01, C02) *)

Require Import List NArith Arith Lia.
Require Import Verif.Base Verif.M_Bitarray Verif.P_Bitarray.
Import ListNotations.
Local Open Scope N_scope.

(** [X] is a matrix with [nf] columns. *)
Definition is_matrix (nf : nat) (X : list (list N)) : Prop :=
  forall row, In row X -> length row = nf.

(** Entry [(i, j)] of the matrix [X]. *)
Definition entry (X : list (list N)) (i j : nat) : option N :=
  match nth_error X i with Some row => nth_error row j | None => None end.

(** C01. Every matrix (at least one row and one column, entries below [2^63]) is packed
    without an error, unpacks to itself, and each cell reads back. [mem] is the
    uninitialised memory of the packed array. *)
Theorem C01_pack_unpack_lossless : forall (mem : nat -> N) (nf : nat) (X : list (list N)),
  (0 < nf)%nat -> X <> [] -> is_matrix nf X ->
  (forall row x, In row X -> In x row -> x < 2 ^ 63) ->
  exists fb, array_to_bitarray mem nf X = Ok fb /\
    fb_n_samples fb = length X /\ fb_n_features fb = nf /\
    to_array fb = Ok X /\
    (forall i j x, entry X i j = Some x -> get_value fb i j = Ok x).
Proof.
  intros mem nf X Hnf HX Hm Hb.
  destruct (array_to_bitarray_spec mem nf X) as (fb & E & W & Hs & Hf & Hmv & HR); auto.
  { destruct X; [congruence|simpl; lia]. }
  exists fb. repeat split; auto.
  - apply (to_array_spec fb X nf); auto. rewrite (wf_nf fb W); auto.
  - intros i j x Hx. unfold entry in Hx. destruct (nth_error X i) as [row|] eqn:Er; [|discriminate].
    eapply HR; eauto.
Qed.
Print Assumptions C01_pack_unpack_lossless.

Example C01_example :
  exists fb, array_to_bitarray (fun _ => 12345) 3 [[0; 5; 300]; [1; 7; 65535]; [1; 0; 2]] = Ok fb /\
    to_array fb = Ok [[0; 5; 300]; [1; 7; 65535]; [1; 0; 2]] /\ get_value fb 1 2 = Ok 65535.
Proof. eexists; split; [vm_compute; reflexivity|]. split; vm_compute; reflexivity. Qed.

(** The bound on the entries is needed: with an entry of at least [2^63] the number of
    bits is 64 and the mask shifts by 64 bits, which is undefined in the compiled code. *)
Theorem C01_needs_63_bits_refuted :
  exists (X : list (list N)), is_matrix 1 X /\
    (forall row x, In row X -> In x row -> x < 2 ^ 64) /\
    forall mem, array_to_bitarray mem 1 X = Err BadShift.
Proof.
  exists [[2 ^ 63]]. split; [|split].
  - intros row [<-|[]]; reflexivity.
  - intros row x [<-|[]] [<-|[]]. reflexivity.
  - intros mem. vm_compute. reflexivity.
Qed.
Print Assumptions C01_needs_63_bits_refuted.

(** An array without rows cannot be packed ([word] is unbound after the loop). *)
Theorem C01_no_rows_refuted : forall mem nf, (0 < nf)%nat ->
  array_to_bitarray mem nf [] = Err Unbound.
Proof.
  intros mem nf H. destruct nf; [lia|].
  unfold array_to_bitarray.
  rewrite (mapM_pure _ (fun _ => [])) by reflexivity.
  cbn [bind]. rewrite map_map.
  destruct (fba_init_spec mem 0 (map (fun _ => col_max []) (seq 0 (S nf)))) as (fb & E & W & E1 & E2 & E3).
  { intros j mv Hj. rewrite nth_error_map in Hj. destruct (nth_error (seq 0 (S nf)) j); inversion Hj; subst. reflexivity. }
  cbn [length]. rewrite E. cbn [bind]. unfold fill_values.
  rewrite E2, map_length, seq_length.
  cbn [seq foldM]. cbn [column_of mapM bind]. unfold fill_column.
  destruct (wf_get_col fb 0 W) as (mv & lo & hi & cb & _ & _ & G1 & G2 & _ & G3 & _ & G4 & G5 & _).
  { rewrite E2, map_length, seq_length. lia. }
  rewrite G1. cbn [bind]. rewrite G2. cbn [bind]. rewrite G3. cbn [bind]. rewrite G4. cbn [bind].
  rewrite G5. cbn [bind]. reflexivity.
Qed.
Print Assumptions C01_no_rows_refuted.

(** C02. Starting from a freshly allocated packed array, after any sequence of column
    writes (any order, any repetition) each cell reads as the last column written there;
    cells of columns never written keep the (arbitrary) initial content. *)
Theorem C02_column_writes_are_isolated :
  forall (mem : nat -> N) (n : nat) (mvs : list N) (ops : list (nat * list N)),
  (0 < n)%nat -> (forall mv, In mv mvs -> mv < 2 ^ 63) ->
  Forall (fun op => exists mv, nth_error mvs (fst op) = Some mv /\ length (snd op) = n /\
                       forall x, In x (snd op) -> x <= mv) ops ->
  exists fb0 fb, fba_init mem n mvs = Ok fb0 /\
    foldM (fun fb op => fill_column fb (fst op) (snd op)) ops fb0 = Ok fb /\
    (forall i j, match last_write ops j with
                 | None => get_value fb i j = get_value fb0 i j
                 | Some col => forall x, nth_error col i = Some x -> get_value fb i j = Ok x
                 end).
Proof.
  intros mem n mvs ops Hn Hmv Hops.
  destruct (fba_init_spec mem n mvs) as (fb0 & E & W & E1 & E2 & E3).
  { intros j mv Hj. apply Hmv. eapply nth_error_In; eauto. }
  destruct (fills_spec ops fb0 W) as (fb & F & W' & S & R).
  { rewrite E1; auto. }
  { rewrite E1, E3. exact Hops. }
  exists fb0, fb. split; [auto|]. split; [exact F|].
  intros i j. specialize (R i j). destruct (last_write ops j) as [col|]; auto.
  intros x Hx. rewrite Hx in R. auto.
Qed.
Print Assumptions C02_column_writes_are_isolated.

(** C02, memory: one write of column [j] in a well-formed packed array changes no word
    outside of the words [offsets[j] .. offsets[j+1]) of that column, and does not change
    the layout; distinct columns own disjoint words. *)
Theorem C02_column_write_touches_own_words :
  forall (fb : fba) (j : nat) (mv : N) (col : list N), fba_wf fb ->
  nth_error (fb_max_values fb) j = Some mv -> (0 < fb_n_samples fb)%nat ->
  length col = fb_n_samples fb -> (forall x, In x col -> x <= mv) ->
  exists fb' lo hi, fill_column fb j col = Ok fb' /\
    nth_error (fb_offsets fb) j = Some lo /\ nth_error (fb_offsets fb) (S j) = Some hi /\
    fb_offsets fb' = fb_offsets fb /\ fb_n_bits fb' = fb_n_bits fb /\
    fb_n_values fb' = fb_n_values fb /\ fb_bitmasks fb' = fb_bitmasks fb /\
    length (fb_bitarray fb') = length (fb_bitarray fb) /\
    (forall k, (k < lo \/ hi <= k)%nat ->
       nth_error (fb_bitarray fb') k = nth_error (fb_bitarray fb) k) /\
    (forall j' lo' hi', j' <> j -> nth_error (fb_offsets fb) j' = Some lo' ->
       nth_error (fb_offsets fb) (S j') = Some hi' -> (hi' <= lo \/ hi <= lo')%nat).
Proof.
  intros fb j mv col W Hmv Hn Hl Hx.
  destruct (fill_column_spec fb j mv col W Hmv Hn Hl Hx) as (fb' & E & W' & S & _ & _ & Hw).
  assert (Hj : (j < fb_n_features fb)%nat).
  { rewrite <- (wf_nf fb W). apply nth_error_Some. congruence. }
  destruct (wf_get_col fb j W Hj) as (mv' & lo & hi & cb & _ & _ & G1 & G2 & _).
  exists fb', lo, hi. pose proof E as E'. unfold fill_column in E'.
  rewrite G1 in E'. cbn [bind] in E'. rewrite G2 in E'. cbn [bind] in E'.
  apply bind_ok in E'; destruct E' as (cb0 & _ & E').
  apply bind_ok in E'; destruct E' as (nv & _ & E').
  apply bind_ok in E'; destruct E' as (nb & _ & E').
  apply bind_ok in E'; destruct E' as (cb' & _ & E').
  apply bind_ok in E'; destruct E' as (b & Es & E').
  inversion E' as [E'']. 
  pose proof (proj1 (get_ok _ _ _) G1) as O1. pose proof (proj1 (get_ok _ _ _) G2) as O2.
  split; [congruence|]. rewrite E''.
  split; [auto|]. split; [auto|]. rewrite <- E''. cbn. split; [auto|]. split; [auto|]. split; [auto|].
  split; [auto|]. split; [eapply splice_length; eauto|]. split.
  - intros k Hk. rewrite <- E'' in Hw. cbn in Hw. apply Hw.
    rewrite (nth_error_nth _ _ _ O1). rewrite (nth_error_nth _ _ _ O2). auto.
  - intros j' lo' hi' Hne O1' O2'. destruct (Nat.lt_ge_cases j' j).
    + left. eapply (offsets_mono fb (Datatypes.S j') j); eauto; lia.
    + right. eapply (offsets_mono fb (Datatypes.S j) j'); eauto; lia.
Qed.
Print Assumptions C02_column_write_touches_own_words.

(** Columns 0 and 2 are written, then 0 again; column 1 is never written. *)
Example C02_example :
  exists fb0 fb, fba_init (fun k => 9 + N.of_nat k) 3 [1; 7; 300] = Ok fb0 /\
    foldM (fun fb op => fill_column fb (fst op) (snd op))
      [(0%nat, [1; 1; 1]); (2%nat, [300; 0; 17]); (0%nat, [0; 1; 0])] fb0 = Ok fb /\
    map (fun i => get_value fb i 0) [0; 1; 2]%nat = [Ok 0; Ok 1; Ok 0] /\
    map (fun i => get_value fb i 2) [0; 1; 2]%nat = [Ok 300; Ok 0; Ok 17] /\
    get_value fb 1 1 = get_value fb0 1 1.
Proof.
  eexists; eexists. split; [vm_compute; reflexivity|]. split; [vm_compute; reflexivity|].
  split; [vm_compute; reflexivity|]. split; vm_compute; reflexivity.
Qed.
