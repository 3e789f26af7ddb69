(** Properties C14-C21, C54 and C55 of the engine.  An execution is any list of moves; what is claimed is about the list of
    observable events it leaves ([trace]) and about the threads. *)
From Verif Require Import Base Eng_Model Eng_Spec Eng_Moves Eng_Inv Eng_Struct Eng_Trace Eng_Stop Eng_Flush Eng_Hook Eng_Facts Eng_Sets Eng_Start Eng_Progress Eng_More.
From Coq Require Import Permutation.

(** Schedules for the examples: everybody in turn, [n] rounds of [m] actors. *)
Definition rounds (n m : nat) : list move := concat (repeat (map Go (seq 0 m)) n).
Definition solo (n a : nat) : list move := repeat (Go a) n.

Lemma times_one : forall r, times r [r] = 1.
Proof. intros r; unfold times; cbn; destruct (Nat.eq_dec r r); congruence. Qed.
Lemma nodup_times : forall l, NoDup l <-> forall r, times r l <= 1.
Proof. intros l; unfold times; apply NoDup_count_occ. Qed.

Section Props.
  Variable nested : nat -> list nat.
  Notation reach := (reachable nested).

  (** *** C14 *)
  (** At every moment, of every record: executed no more often than handed over, handed over no more often than written. *)
  Theorem C14_not_invented : forall progs p q s t1 t2 r, reach progs p q s -> trace (sh s) = t1 ++ t2 ->
    times r (all_starts t1) <= times r (all_puts t1) /\ times r (all_puts t1) <= times r (calls t1).
  Proof. intros progs p q s t1 t2 r R Q; exact (InvP_reach nested progs p q s R t1 t2 r Q). Qed.
  Theorem C14_at_most_once : forall progs p q s, reach progs p q s -> NoDup (calls (trace (sh s))) ->
    NoDup (all_starts (trace (sh s))) /\ NoDup (all_dones (trace (sh s))) /\ incl (all_dones (trace (sh s))) (calls (trace (sh s))).
  Proof.
    intros progs p q s R N; pose proof (fun r => InvP_reach nested progs p q s R (trace (sh s)) [] r (eq_sym (app_nil_r _))) as P; pose proof (InvR_reach nested progs p q s R) as IR.
    rewrite !nodup_times in *; split; [intros r; specialize (P r); specialize (N r); lia|]; split; [intros r; specialize (P r); specialize (N r); specialize (IR r); lia|].
    intros r Hr; specialize (P r); specialize (IR r); unfold times in *; apply (count_occ_In Nat.eq_dec) in Hr; apply (count_occ_In Nat.eq_dec); lia.
  Qed.
  (** When write returns, the record has been handed over: nothing is silently dropped. *)
  Theorem C14_handed_over : forall progs p q s t1 t2 r, reach progs p q s -> trace (sh s) = t1 ++ EvRet r :: t2 ->
    times r (rets (t1 ++ [EvRet r])) <= times r (all_puts t1).
  Proof.
    intros progs p q s t1 t2 r (ms & ->) T; destruct (at_event nested progs p q ms t1 (EvRet r) t2 T) as (ms1 & ms2 & _ & T1); [intros k r0 Q; discriminate Q|].
    pose proof (Inv_reachable nested progs p q _ (ex_intro _ ms1 eq_refl)) as (_ & _ & (_ & B & _) & _); specialize (B r); rewrite T1 in B.
    assert (all_puts (t1 ++ [EvRet r]) = all_puts t1) as E by (unfold all_puts; rewrite pick_app; cbn [pick]; apply app_nil_r); rewrite E in B; lia.
  Qed.
  (** Nothing is executed by an instance that was not handed over to that instance. *)
  Theorem C14_same_instance : forall progs p q s k r, reach progs p q s ->
    times r (dones k (trace (sh s))) <= times r (starts k (trace (sh s))) <= times r (puts k (trace (sh s))).
  Proof.
    intros progs p q s k r R; pose proof (Inv_reachable nested progs p q s R) as I0; split; [|apply starts_puts; exact I0].
    destruct I0 as (_ & _ & (_ & _ & C & _) & _); rewrite (C k r); lia.
  Qed.

  (** *** C15 *)
  Lemma at_end : forall progs p q ms t1 k t2 t3, let s := run nested ms (init progs p q) in trace (sh s) = t1 ++ EvStopBegin k :: t2 ++ EvStopEnd k :: t3 ->
    exists ms1 ms2, ms = ms1 ++ ms2 /\ trace (sh (run nested ms1 (init progs p q))) = t1 ++ EvStopBegin k :: t2 ++ [EvStopEnd k].
  Proof.
    intros progs p q ms t1 k t2 t3 s T; destruct (at_event nested progs p q ms (t1 ++ EvStopBegin k :: t2) (EvStopEnd k) t3) as (ms1 & ms2 & E & T1).
    - rewrite <- app_assoc; exact T.
    - intros k0 r0 Q; discriminate Q.
    - exists ms1, ms2; split; [exact E|]; rewrite <- app_assoc in T1; exact T1.
  Qed.
  (** When stop returns, what was handed over before it was called has been executed, even if more was handed over since. *)
  Theorem C15_flushed : forall progs p q s t1 k t2 t3 r, reach progs p q s -> trace (sh s) = t1 ++ EvStopBegin k :: t2 ++ EvStopEnd k :: t3 ->
    times r (puts k t1) <= times r (dones k (t1 ++ EvStopBegin k :: t2)).
  Proof.
    intros progs p q s t1 k t2 t3 r (ms & ->) T; destruct (at_end progs p q ms t1 k t2 t3 T) as (ms1 & ms2 & -> & T1).
    destruct (stop_done nested progs p q _ k t1 (t2 ++ [EvStopEnd k]) (ex_intro _ ms1 eq_refl) T1) as (P & l & L); [apply in_or_app; right; left; reflexivity|].
    assert (dones k (t1 ++ EvStopBegin k :: t2) = dones k (t1 ++ EvStopBegin k :: t2 ++ [EvStopEnd k])) as ->.
    { unfold dones; rewrite !pick_app; f_equal; change (EvStopBegin k :: t2 ++ [EvStopEnd k]) with ((EvStopBegin k :: t2) ++ [EvStopEnd k]); rewrite pick_app; cbn; rewrite app_nil_r; reflexivity. }
    rewrite <- T1; unfold times in *; rewrite (Permutation_count_occ Nat.eq_dec) in P; rewrite (P r), L, count_occ_app; lia.
  Qed.
  (** If nothing was handed over since, exactly that has been executed. *)
  Theorem C15_stop_flushes : forall progs p q s t1 k t2 t3, reach progs p q s -> trace (sh s) = t1 ++ EvStopBegin k :: t2 ++ EvStopEnd k :: t3 -> puts k t2 = [] ->
    Permutation (dones k (t1 ++ EvStopBegin k :: t2)) (puts k t1).
  Proof.
    intros progs p q s t1 k t2 t3 (ms & ->) T N; pose proof (ex_intro _ ms eq_refl : reach progs p q _) as R; apply count_perm; intros r; apply Nat.le_antisymm; [|eapply C15_flushed; eassumption].
    destruct (at_end progs p q ms t1 k t2 t3 T) as (ms1 & ms2 & -> & T1).
    pose proof (C14_same_instance progs p q _ k r (ex_intro _ ms1 eq_refl)) as [A B]; rewrite T1 in A, B.
    assert (puts k (t1 ++ EvStopBegin k :: t2 ++ [EvStopEnd k]) = puts k t1) as E by (unfold puts in *; rewrite pick_app; cbn [pick]; rewrite pick_app, N; cbn; rewrite app_nil_r; reflexivity).
    rewrite E in B; assert (times r (dones k (t1 ++ EvStopBegin k :: t2)) <= times r (dones k (t1 ++ EvStopBegin k :: t2 ++ [EvStopEnd k]))); [|lia].
    unfold dones; rewrite !pick_app, !times_app; cbn [pick]; rewrite pick_app, times_app; lia.
  Qed.
  (** Since then all its workers are over. *)
  Theorem C15_workers_exit : forall progs p q s k x, reach progs p q s -> In (EvStopEnd k) (trace (sh s)) -> In x (actors s) -> is_worker_of k x -> over x.
  Proof.
    intros progs p q s k x R SE Hx W; pose proof (Inv_reachable nested progs p q s R) as I0; pose proof I0 as (_ & _ & _ & _ & _ & _ & _ & (_ & _ & I5) & _).
    destruct (nth_error (engs (sh s)) k) as [e|] eqn:Ee; [eapply worker_over; eassumption|apply nth_error_None in Ee; specialize (I5 k SE); lia].
  Qed.

  (** *** C16 *)
  (** The records an instance has started are the first ones of those handed over to it, in that order. *)
  Theorem C16_fifo : forall progs p q s t1 t2 k, reach progs p q s -> trace (sh s) = t1 ++ t2 -> exists waiting, puts k t1 = starts k t1 ++ waiting.
  Proof.
    intros progs p q s t1 t2 k (ms & ->) T; destruct (split_state nested progs p q ms t1 t2 T) as (ms1 & ms2 & _ & K).
    pose proof (Inv_reachable nested progs p q _ (ex_intro _ ms1 eq_refl)) as (_ & _ & (_ & _ & _ & _ & F & _) & _); specialize (F k).
    destruct K as [K|(k0 & r0 & t0 & -> & K)]; rewrite K in F.
    - eauto.
    - unfold puts, starts in *; rewrite !pick_app in F; cbn [pick] in F; rewrite app_nil_r in F; rewrite !pick_app; cbn [pick]; rewrite app_nil_r.
      destruct (Nat.eqb k0 k); rewrite ?app_nil_r in F; rewrite ?app_nil_r in *; [|eauto].
      rewrite F, <- !app_assoc; eauto.
  Qed.
  (** With one worker they also finish in that order. *)
  Theorem C16_one_worker : forall progs p q s k e, reach progs p q s -> nth_error (engs (sh s)) k = Some e -> e_multi e = true -> e_count e = 1 ->
    exists rest, puts k (trace (sh s)) = dones k (trace (sh s)) ++ rest.
  Proof.
    intros progs p q s k e R Ee M C; pose proof (Inv_reachable nested progs p q s R) as (_ & (_ & IB & _) & (_ & _ & _ & _ & F & _) & _).
    destruct (IB k e Ee) as (_ & _ & _ & W); destruct (W 0) as (w & Hw & _); [lia|]; rewrite Nat.add_0_r in Hw.
    rewrite (F k), (InvO_reach nested progs p q s R k e w Ee M C Hw), <- app_assoc; eauto.
  Qed.
  Corollary C16_pool_of_one : forall progs q s k, reach progs 1 q s -> never is_set progs -> exists rest, puts k (trace (sh s)) = dones k (trace (sh s)) ++ rest.
  Proof.
    intros progs q s k R N; destruct (nth_error (engs (sh s)) k) as [e|] eqn:Ee.
    - destruct (fixed nested progs 1 q s N R) as (_ & _ & K); destruct (K k e Ee) as (K1 & K2 & _); eapply C16_one_worker; eassumption.
    - apply nth_error_None in Ee; destruct (none_starts s k (Inv_reachable nested progs 1 q s R) (InvK_reach nested progs 1 q s R) Ee) as (_ & ->); cbn; eauto.
  Qed.
  (** Without workers a record has been executed when write returns. *)
  Theorem C16_synchronous : forall progs p q s r, reach progs p q s ->
    (forall k e, nth_error (engs (sh s)) k = Some e -> e_multi e = true -> times r (puts k (trace (sh s))) = 0) ->
    times r (rets (trace (sh s))) <= times r (all_dones (trace (sh s))).
  Proof. intros progs p q s r R H; apply sync_rets; [exact (Inv_reachable nested progs p q s R)|exact (InvR_reach nested progs p q s R)|exact H]. Qed.
  Corollary C16_no_pool : forall progs q s t1 t2 r, reach progs 0 q s -> never is_set progs -> trace (sh s) = t1 ++ EvRet r :: t2 ->
    times r (rets (t1 ++ [EvRet r])) <= times r (all_dones t1).
  Proof.
    intros progs q s t1 t2 r (ms & ->) N T; destruct (at_event nested progs 0 q ms t1 (EvRet r) t2 T) as (ms1 & ms2 & _ & T1); [intros k r0 Q; discriminate Q|].
    pose proof (ex_intro _ ms1 eq_refl : reach progs 0 q _) as R.
    pose proof (C16_synchronous progs 0 q _ r R) as K; rewrite T1 in K; unfold all_dones in *; rewrite pick_app in K; cbn [pick] in K; rewrite app_nil_r in K; apply K.
    intros k e Ee M; destruct (fixed nested progs 0 q _ N R) as (_ & _ & F); destruct (F k e Ee) as (_ & F2 & _); rewrite F2 in M; discriminate M.
  Qed.

  (** *** C17 *)
  Theorem C17_bounds : forall progs p q s k e, reach progs p q s -> nth_error (engs (sh s)) k = Some e -> e_multi e = true ->
    (e_max e <> 0 -> length (puts k (trace (sh s))) <= length (starts k (trace (sh s))) + e_max e) /\
    length (starts k (trace (sh s))) <= length (dones k (trace (sh s))) + e_count e.
  Proof.
    intros progs p q s k e R Ee M; pose proof (Inv_reachable nested progs p q s R) as I0; pose proof I0 as (_ & _ & (_ & _ & _ & _ & F & _) & _ & _ & _ & (_ & I4) & _).
    split.
    - intros Z; rewrite (F k), app_length; unfold queue_of; rewrite Ee; destruct (I4 k e Ee); lia.
    - rewrite (InvL_reach nested progs p q s R k); pose proof (run_bound s k e I0 Ee M); lia.
  Qed.
  (** The same with the settings as they were given, if nobody changes them, and at every moment. *)
  Corollary C17_settings : forall progs p q s k, reach progs p q s -> never is_set progs -> p <> 0 ->
    (q <> 0 -> length (puts k (trace (sh s))) <= length (starts k (trace (sh s))) + q) /\
    length (starts k (trace (sh s))) <= length (dones k (trace (sh s))) + p.
  Proof.
    intros progs p q s k R N P; destruct (nth_error (engs (sh s)) k) as [e|] eqn:Ee.
    - destruct (fixed nested progs p q s N R) as (_ & _ & K); destruct (K k e Ee) as (K1 & K2 & K3); specialize (K3 P).
      destruct (C17_bounds progs p q s k e R Ee) as (A & B); [rewrite K2; destruct (Nat.eqb_spec p 0); [contradiction|reflexivity]|]; rewrite K1, K3 in *; auto.
    - apply nth_error_None in Ee; destruct (none_starts s k (Inv_reachable nested progs p q s R) (InvK_reach nested progs p q s R) Ee) as (-> & ->).
      rewrite (InvK_reach nested progs p q s R k Ee); cbn; lia.
  Qed.

  (** *** C18 *)
  (** Records handed over before the stop began are executed before it ends: [C15_flushed].  A record whose write begins after
      the stop of instance k began is never handed over to k. *)
  Theorem C18_new_records_elsewhere : forall progs p q s t1 k t2 r, reach progs p q s -> trace (sh s) = t1 ++ EvStopBegin k :: t2 -> times r (calls t1) = 0 ->
    times r (puts k (trace (sh s))) = 0.
  Proof. intros progs p q s t1 k t2 r R T Z; pose proof (Inv_reachable nested progs p q s R) as (_ & _ & _ & _ & _ & _ & _ & _ & _ & I7 & _); exact (proj1 (I7 k t1 t2 r T Z)). Qed.
  (** The instance that replaces another one is loaded only after that one, if it has workers, was stopped completely. *)
  Theorem C18_old_stopped_first : forall progs p q s k e, reach progs p q s -> nth_error (engs (sh s)) k = Some e -> e_multi e = true -> S k < length (engs (sh s)) ->
    exists a b, trace (sh s) = a ++ EvStopBegin k :: b /\ In (EvStopEnd k) b.
  Proof.
    intros progs p q s k e R Ee M L; pose proof (Inv_reachable nested progs p q s R) as (_ & (_ & _ & IC) & _ & _ & _ & _ & _ & _ & _ & _ & (I8 & _) & _).
    apply (I8 k) with (e := e); [|exact Ee|exact M]; rewrite IC; destruct (length (engs (sh s))); [discriminate|]; intros Q; injection Q as Q; lia.
  Qed.
  (** A record handed over to an instance after that was stopped is never executed. *)
  Theorem C18_lost : forall progs p q s k, reach progs p q s -> In (EvStopEnd k) (trace (sh s)) ->
    forall ms, starts k (trace (sh (run nested ms s))) = starts k (trace (sh s)).
  Proof.
    intros progs p q s k R SE ms; eapply dead_stays; [exact (Inv_reachable nested progs p q s R)|exact (Inv10_reach nested progs p q s R)|exact (Inv10b_reach nested progs p q s R)|exact SE].
  Qed.
  (** A writer waiting for room in the queue of a stopped instance waits for ever. *)
  Theorem C18_stuck : forall progs p q s a k x, reach progs p q s -> nth_error (actors s) a = Some x -> late s k x ->
    forall ms, nth_error (actors (run nested ms s)) a = Some x.
  Proof.
    intros progs p q s a k x R Ha (r & e & HD & Ee & M & RM & SE) ms; eapply late_stays; [exact HD|exact RM|exact M|exact (Inv_reachable nested progs p q s R)|exact SE|exact Ha|exact Ee].
  Qed.

  (** *** C19 *)
  (** When a record is handed over, the engine has been initialised, exactly once. *)
  Theorem C19_initialised_once : forall progs p q s, reach progs p q s -> never is_started progs ->
    length (inits (trace (sh s))) <= 1 /\ forall t1 k r t2, trace (sh s) = t1 ++ EvPut k r :: t2 -> length (inits t1) = 1.
  Proof.
    intros progs p q s (ms & ->) N; pose proof (ex_intro _ ms eq_refl : reach progs p q _) as R; destruct (InvB_reach nested progs p q _ N R) as (A & _).
    split; [destruct (started _); cbn in A; lia|]; intros t1 k r t2 T.
    destruct (split_state nested progs p q ms (t1 ++ [EvPut k r]) t2) as (ms1 & ms2 & E & K); [rewrite <- app_assoc; exact T|].
    pose proof (ex_intro _ ms1 eq_refl : reach progs p q _) as R1; set (s1 := run nested ms1 (init progs p q)) in *; destruct (InvB_reach nested progs p q s1 N R1) as (A1 & _).
    pose proof (Inv_reachable nested progs p q s1 R1) as (_ & _ & _ & (I1 & _) & _).
    assert (inits (trace (sh s1)) = inits t1 /\ 0 < length (puts k (trace (sh s1)))) as (I & P).
    { unfold inits, puts; destruct K as [->|(k0 & r0 & t0 & Q & ->)]; rewrite !pick_app; cbn [pick]; rewrite ?Nat.eqb_refl, !app_nil_r; (split; [reflexivity|]); rewrite !app_length; cbn [length]; lia. }
    rewrite I in A1; destruct (started (sh s1)) eqn:S; [exact A1|exfalso]; destruct (I1 eq_refl) as (Z & _).
    rewrite (InvK_reach nested progs p q s1 R1 k) in P by (rewrite Z; cbn; lia); cbn in P; lia.
  Qed.
  Theorem C19_no_crash : forall progs p q s, reach progs p q s -> never is_started progs -> crashes (trace (sh s)) = [].
  Proof. intros progs p q s R N; destruct (InvB_reach nested progs p q s N R) as (_ & _ & _ & _ & _ & K); exact K. Qed.
  (** The deadly embrace is for ever. *)
  Theorem C19_embrace_for_ever : forall progs p q s, reach progs p q s -> embrace s -> forall ms, embrace (run nested ms s).
  Proof.
    intros progs p q s R ((x & r & Hx & HX) & (y & cs & Hy & HY)) ms; pose proof (Inv_reachable nested progs p q s R) as I0; pose proof I0 as (_ & (IE & _) & _).
    apply In_nth_error in Hx, Hy; destruct Hx as (a & Ha), Hy as (b & Hb).
    assert (y = mkAct (BThread cs S2) []) as ->.
    { specialize (IE _ _ Hb); destruct y as [bb [|f st]]; cbn in HY; subst bb; [reflexivity|]; destruct (frame_base _ _ _ _ _ IE) as [(c1 & Z)|(k1 & j1 & Z)]; discriminate Z. }
    destruct (embrace_stays nested a b x _ r cs HX eq_refl s I0 Ha Hb ms) as (A & B); split.
    - exists x, r; split; [eapply nth_error_In; exact A|exact HX].
    - eexists _, cs; split; [eapply nth_error_In; exact B|reflexivity].
  Qed.

  (** *** C20 *)
  Lemma frozen : forall s, Inv s -> leaked (sh s) = true -> forall ms, Inv (run nested ms s) /\ leaked (sh (run nested ms s)) = true /\
    (forall k e, nth_error (engs (sh (run nested ms s))) k = Some e -> exists e1, nth_error (engs (sh s)) k = Some e1 /\ e_multi e1 = e_multi e).
  Proof.
    intros s I1 L ms; pattern (run nested ms s); apply run_inv; [|split; [exact I1|split; [exact L|eauto]]].
    intros u v (J1 & J2 & J3) TR; split; [eapply Inv_trans; eassumption|]; destruct TR as (l1 & x & l2 & x' & g' & new & E & H & ->); cbn [sh].
    pose proof (lm_gle _ _ _ _ _ _ _ _ H) as (GL & _ & _ & LK & _); split; [apply LK; exact J2|].
    assert (hE x = 0) as Z by (apply (leaked_free u); [apply J1|exact J2|rewrite E; apply in_mid]).
    assert (length (engs g') = length (engs (sh u))) as LL.
    { clear - H Z; mcases H; proj; rewrite ?store_engs, ?upd_length; try reflexivity; unfold hE in Z; cbn in Z; lia. }
    intros k e Ee; destruct (nth_error (engs (sh u)) k) as [e0|] eqn:E0.
    - destruct (J3 k e0 E0) as (e1 & E1 & M1); destruct (GL k e0 E0) as (e2 & E2 & M2 & _); rewrite Ee in E2; injection E2 as <-; exists e1; split; [exact E1|congruence].
    - exfalso; apply nth_error_None in E0; assert (k < length (engs g')) by (apply nth_error_Some; congruence); lia.
  Qed.
  (** If at event e instance k has been stopped, then everything handed over to it before any moment h at which that stop had not begun is executed. *)
  Lemma flushed_at : forall progs p q s1 t1 e k h h' r, reach progs p q s1 -> trace (sh s1) = t1 ++ [e] -> e <> EvStopEnd k -> ended (trace (sh s1)) k ->
    (exists a b, t1 = a ++ EvStopBegin k :: b /\ In (EvStopEnd k) b) /\ (t1 = h ++ h' -> ~ In (EvStopBegin k) h -> times r (puts k h) <= times r (dones k t1)).
  Proof.
    intros progs p q s1 t1 ev k h h' r R1 T1 NE (a & b & Eab & Hb).
    assert (exists b', b = b' ++ [ev]) as (b' & ->).
    { rewrite T1 in Eab; destruct (exists_last (l := b)) as (b' & z & ->); [intros ->; destruct Hb|]; exists b'; change (EvStopBegin k :: b' ++ [z]) with ((EvStopBegin k :: b') ++ [z]) in Eab.
      rewrite app_assoc in Eab; apply app_inj_tail in Eab; destruct Eab as (_ & <-); reflexivity. }
    assert (In (EvStopEnd k) b') as Hb' by (apply in_app_or in Hb; destruct Hb as [Hb|[Hb|[]]]; [exact Hb|contradiction]).
    assert (t1 = a ++ EvStopBegin k :: b') as ->.
    { rewrite T1 in Eab; change (EvStopBegin k :: b' ++ [ev]) with ((EvStopBegin k :: b') ++ [ev]) in Eab; rewrite app_assoc in Eab; apply app_inj_tail in Eab; exact (proj1 Eab). }
    split; [eauto|]; intros Eh N; apply in_split in Hb'; destruct Hb' as (b1 & b2 & ->).
    pose proof (C15_flushed progs p q s1 a k b1 (b2 ++ [ev]) r R1) as K; rewrite T1, <- !app_assoc in K; cbn [app] in K; rewrite <- ?app_assoc in K; specialize (K eq_refl).
    assert (exists w, a = h ++ w) as (w & ->).
    { clear - Eh N; revert h h' Eh N; induction a as [|z a IH]; intros h h' Eh N; destruct h as [|z' h]; [exists []; reflexivity| |eexists; reflexivity|]; cbn in Eh; injection Eh as Z Eh; subst.
      - exfalso; apply N; left; reflexivity.
      - destruct (IH h h' Eh) as (w & ->); [intros Z; apply N; right; exact Z|]; exists w; reflexivity. }
    replace ((h ++ w) ++ EvStopBegin k :: b1 ++ EvStopEnd k :: b2) with (((h ++ w) ++ EvStopBegin k :: b1) ++ EvStopEnd k :: b2) by (rewrite <- !app_assoc; reflexivity).
    unfold dones, puts in *; rewrite pick_app, times_app in K; rewrite (pick_app _ _ (EvStopEnd k :: b2)), times_app; lia.
  Qed.
  (** C18: when the next instance is loaded, all that was handed over to instance k (if it has workers) before its stop began has been executed. *)
  Theorem C18_reload_flushes : forall progs p q s t1 t2 k e h h' r, reach progs p q s -> trace (sh s) = t1 ++ EvLoad (S k) :: t2 -> nth_error (engs (sh s)) k = Some e -> e_multi e = true ->
    t1 = h ++ h' -> ~ In (EvStopBegin k) h -> times r (puts k h) <= times r (dones k t1).
  Proof.
    intros progs p q s t1 t2 k e h h' r (ms & ->) T Ee M Q N; destruct (at_event nested progs p q ms t1 (EvLoad (S k)) t2 T) as (ms1 & ms2 & -> & T1); [intros k0 r0 Z; discriminate Z|].
    pose proof (ex_intro _ ms1 eq_refl : reach progs p q _) as R1; rewrite run_app in Ee; set (s1 := run nested ms1 (init progs p q)) in *.
    eapply (flushed_at progs p q s1 t1 (EvLoad (S k)) k h h' r R1 T1); [discriminate| |exact Q|exact N].
    pose proof (Inv_reachable nested progs p q s1 R1) as (_ & _ & (_ & _ & _ & _ & _ & L & _) & _).
    assert (S k < length (engs (sh s1))) as LT.
    { assert (In (S k) (loads (trace (sh s1)))) as H by (rewrite T1; unfold loads; rewrite pick_app; apply in_or_app; right; left; reflexivity). rewrite L in H; apply in_seq in H; lia. }
    destruct (nth_error (engs (sh s1)) k) as [e1|] eqn:E1; [|apply nth_error_None in E1; lia].
    apply (C18_old_stopped_first progs p q s1 k e1 R1 E1); [|exact LT].
    assert (exists e2, nth_error (engs (sh (run nested ms2 s1))) k = Some e2 /\ e_multi e2 = e_multi e1) as (e2 & E2 & M2).
    { pattern (run nested ms2 s1); apply run_inv; [|eauto]; intros u v (e2 & E2 & M2) (l1 & x & l2 & x' & g' & new & E & H & ->); cbn [sh].
      destruct (lm_gle _ _ _ _ _ _ _ _ H) as (GL & _); destruct (GL k e2 E2) as (e3 & E3 & M3 & _); exists e3; split; [exact E3|congruence]. }
    rewrite Ee in E2; injection E2 as <-; congruence.
  Qed.
  (** When the exit hook is over in time: every instance with workers has been stopped completely; what was handed over, before the hook
      blocked writing, to an instance whose stop had not begun by then, has been executed. *)
  Theorem C20_flushed : forall progs p q s t1 t2 k e, reach progs p q s -> trace (sh s) = t1 ++ EvHookEnd :: t2 -> nth_error (engs (sh s)) k = Some e -> e_multi e = true ->
    (exists a b, t1 = a ++ EvStopBegin k :: b /\ In (EvStopEnd k) b) /\
    (forall h h' r, t1 = h ++ EvHookBlock :: h' -> ~ In (EvStopBegin k) h -> times r (puts k h) <= times r (dones k t1)).
  Proof.
    intros progs p q s t1 t2 k e (ms & ->) T Ee M; destruct (at_event nested progs p q ms t1 EvHookEnd t2 T) as (ms1 & ms2 & -> & T1); [intros k0 r0 Q; discriminate Q|].
    pose proof (ex_intro _ ms1 eq_refl : reach progs p q _) as R1; rewrite run_app in Ee; set (s1 := run nested ms1 (init progs p q)) in *.
    pose proof (Inv_reachable nested progs p q s1 R1) as I1; pose proof I1 as (IA & _ & _ & _ & _ & _ & _ & _ & _ & _ & _ & (I9a & I9 & _)).
    assert (In EvHookEnd (trace (sh s1))) as HE by (rewrite T1; apply in_or_app; right; left; reflexivity).
    destruct (I9 HE) as (HB & HEND); destruct (I9a HB) as (L & _); destruct (frozen s1 I1 L ms2) as (_ & _ & F); destruct (F k e Ee) as (e1 & E1 & M1); rewrite M in M1.
    pose proof (HEND k e1 E1 M1) as EN; split.
    - eapply (flushed_at progs p q s1 t1 EvHookEnd k [] t1 0 R1 T1); [discriminate|exact EN].
    - intros h h' r Q N; eapply (flushed_at progs p q s1 t1 EvHookEnd k h (EvHookBlock :: h') r R1 T1); [discriminate|exact EN|exact Q|exact N].
  Qed.
  (** In particular what was handed over to the instance in use when the hook blocked writing. *)
  Corollary C20_current_flushed : forall progs p q s h h' t2 k e r, reach progs p q s -> trace (sh s) = (h ++ EvHookBlock :: h') ++ EvHookEnd :: t2 -> cur (sh s) = Some k -> nth_error (engs (sh s)) k = Some e -> e_multi e = true ->
    times r (puts k h) <= times r (dones k (h ++ EvHookBlock :: h')).
  Proof.
    intros progs p q s h h' t2 k e r R T C Ee M; destruct (C20_flushed progs p q s _ t2 k e R T Ee M) as (_ & K); apply (K h h' r eq_refl).
    rewrite <- app_assoc in T; cbn [app] in T; exact (proj2 (Inv11_reach nested progs p q s R) h _ k T C).
  Qed.
  Lemma lm_crash : forall ex n x g x' g' new, lm nested ex n x g x' g' new -> forall r,
    times r (crashes (trace g')) = times r (crashes (trace g)) \/ exists pc, In (FWrite pc r) (astack x) /\ ~ waits pc.
  Proof.
    intros ex n x g x' g' new H r1; mcases H; proj; rewrite ?store_trace; unfold crashes; rewrite ?pick_app, ?times_app; cbn [pick]; rewrite ?times_nil; try (left; lia);
      match goal with |- context [times ?a [?b]] => destruct (Nat.eq_dec b a) as [->|N]; [right; eexists; split; [left; reflexivity|intros [Q|Q]; discriminate Q]|left; assert (times a [b] = 0) as ->; [|lia]] end;
      unfold times; cbn; match goal with |- (if ?c then _ else _) = _ => destruct c end; congruence.
  Qed.
  Lemma no_crash_later : forall progs p q s, reach progs p q s -> forall t1 t2 r, trace (sh s) = t1 ++ EvHookBlock :: t2 -> times r (calls t1) = 0 -> times r (crashes (trace (sh s))) = 0.
  Proof.
    intros progs p q; apply (reach_inv nested (fun s => forall t1 t2 r, trace (sh s) = t1 ++ EvHookBlock :: t2 -> times r (calls t1) = 0 -> times r (crashes (trace (sh s))) = 0)).
    - intros t1 t2 r Q; destruct t1; discriminate Q.
    - intros s s' I0 _ IH TR t1 t2 r Q Z; pose proof TR as (l1 & x & l2 & x' & g' & new & E & H & ->); cbn [sh] in *.
      destruct (lm_hook _ _ _ _ _ _ _ _ H) as (es & T & TB & _); pose proof Q as Q0; rewrite T in Q; destruct (split_cases _ _ _ _ _ Q) as [(t2' & K & ->)|(a' & -> & K)].
      + destruct (lm_crash _ _ _ _ _ _ _ H r) as [->|(pc & F & W)]; [eapply IH; eassumption|exfalso; apply W].
        destruct I0 as (_ & _ & _ & _ & _ & _ & _ & _ & _ & _ & _ & (_ & _ & I9 & _)); destruct (I9 t1 t2' r K Z) as (_ & B); eapply B; [rewrite E; apply in_mid|exact F].
      + destruct TB as (T1 & _); [rewrite K; apply in_mid|]; rewrite T1 in K; apply single_split in K; destruct K as (-> & -> & _); rewrite app_nil_r in *.
        rewrite Q0; unfold crashes; rewrite pick_app; cbn [pick]; rewrite app_nil_r; destruct I0 as (_ & _ & (T1' & _) & _); specialize (T1' r); fold (crashes (trace (sh s))); lia.
  Qed.
  (** A record whose write begins after the hook blocked writing is never handed over, and its write neither returns nor raises. *)
  Theorem C20_nothing_later : forall progs p q s t1 t2 r, reach progs p q s -> trace (sh s) = t1 ++ EvHookBlock :: t2 -> times r (calls t1) = 0 ->
    times r (all_puts (trace (sh s))) = 0 /\ times r (all_starts (trace (sh s))) = 0 /\ times r (rets (trace (sh s))) = 0 /\ times r (crashes (trace (sh s))) = 0.
  Proof.
    intros progs p q s t1 t2 r R T Z; pose proof (Inv_reachable nested progs p q s R) as (_ & _ & (T1 & T2 & _ & T4 & _) & _ & _ & _ & _ & _ & _ & _ & _ & (_ & _ & I9 & _)).
    destruct (I9 t1 t2 r T Z) as (A & B); specialize (T1 r); specialize (T2 r); specialize (T4 r); split; [exact A|]; split; [lia|]; split; [lia|].
    eapply no_crash_later; eassumption.
  Qed.
  (** The hook never gives the engine lock back: from then on it is taken for ever. *)
  Theorem C20_lock_kept : forall progs p q s, reach progs p q s -> In EvHookLock (trace (sh s)) -> forall ms, elock (sh (run nested ms s)) = true.
  Proof.
    intros progs p q s R H ms; pose proof (Inv_reachable nested progs p q s R) as I0; pose proof I0 as (_ & _ & _ & _ & _ & _ & _ & _ & _ & _ & _ & (_ & _ & _ & L)).
    destruct (frozen s I0 (L H) ms) as (((A & _) & _) & LK & _); rewrite LK in A; destruct (elock _); [reflexivity|cbn [b2n] in A; lia].
  Qed.

  (** *** C21 *)
  (** A handler of a record written by worker w logs while a change of the settings waits for w: both wait for ever. *)
  Theorem C21_cycle_for_ever : forall progs p q s a i k e cs w r, reach progs p q s -> nth_error (actors s) a = Some (mkAct (BThread cs (S7 (PJoin k i))) []) ->
    nth_error (engs (sh s)) k = Some e -> i < e_count e -> nth_error (actors s) (e_first e + i) = Some w -> hd_error (astack w) = Some (FWrite B1 r) ->
    forall ms, nth_error (actors (run nested ms s)) a = Some (mkAct (BThread cs (S7 (PJoin k i))) []) /\ nth_error (actors (run nested ms s)) (e_first e + i) = Some w.
  Proof.
    intros progs p q s a i k e cs w r R Ha Ee Li Hw HD ms; exact (cycle_stays nested a i k cs w r e HD Li s (Inv_reachable nested progs p q s R) Ha Hw (ex_intro _ e (conj Ee (eng_le_refl e))) ms).
  Qed.

  (** *** C55 *)
  Theorem C55_instance_fits : forall progs p q s k e, reach progs p q s -> cur (sh s) = Some k -> nth_error (engs (sh s)) k = Some e ->
    (forall x cs pc, In x (actors s) -> abase x = BThread cs pc -> match pc with S2 | S3 | S4 | S5 | S6 | S7 _ | S8 => False | _ => True end) ->
    e_count e = psize (sh s) /\ e_multi e = negb (Nat.eqb (psize (sh s)) 0) /\ (psize (sh s) <> 0 -> e_max e = qmax (sh s)).
  Proof.
    intros progs p q s k e R C E N; destruct (InvC_reach nested progs p q s R k e C E) as [F|(x & Hx & RX)].
    - exact F.
    - exfalso; destruct x as [[cs pc|] st]; [|destruct RX]; specialize (N _ cs pc Hx eq_refl); destruct pc; try (destruct RX; fail); exact N.
  Qed.
  (** Instances are numbered in the order in which they are loaded, and only the last one is in use. *)
  Theorem C55_latest_in_use : forall progs p q s, reach progs p q s -> loads (trace (sh s)) = seq 0 (length (engs (sh s))) /\
    cur (sh s) = match length (engs (sh s)) with 0 => None | S m => Some m end.
  Proof. intros progs p q s R; pose proof (Inv_reachable nested progs p q s R) as (_ & (_ & _ & C) & (_ & _ & _ & _ & _ & L & _) & _); auto. Qed.
End Props.

(** ** Bringing the work to an end.  Handlers do not log here ([quiet]), nobody sets 'started', and there is no exit hook. *)

(** A thread that was not overtaken has run all its commands; nothing that can be executed is left unexecuted. *)
Definition all_done (s : state) : Prop :=
  (forall x, In x (actors s) -> finished x \/ exists k, late s k x) /\
  (forall k, k < length (engs (sh s)) -> (forall t1 t2, trace (sh s) = t1 ++ EvStopBegin k :: t2 -> puts k t2 = []) -> Permutation (dones k (trace (sh s))) (puts k (trace (sh s)))).

Lemma worker_fin : forall x, ~ is_thread x -> finished x.
Proof. intros [[cs pc|k j pc] st] H; [destruct (H I)|exact I]. Qed.
Lemma fin_stack : forall x, finished x -> is_thread x -> astack x = [] /\ ~ stopper x.
Proof. intros [[[|c cs] []|k j pc] [|f st]] H T; try (destruct H; fail); try (destruct T; fail); split; auto; intros []. Qed.

Lemma rest_all_done : forall progs p q s, never is_hook progs -> reachable quiet progs p q s -> at_rest s -> ~ embrace s -> all_done s.
Proof.
  intros progs p q s NH R (ST & [EM|TH]) NE; [contradiction|]; split.
  - intros x Hx; destruct (abase x) eqn:AB; [apply TH; [exact Hx|unfold is_thread; rewrite AB; exact I]|left; apply worker_fin; unfold is_thread; rewrite AB; auto].
  - intros k Lk NP; pose proof (Inv_reachable quiet progs p q s R) as I0; pose proof I0 as (IA & (IE & _ & IC) & (_ & _ & _ & _ & F & _) & _ & _ & I3 & _ & _ & _ & _ & (I8 & _) & _).
    destruct (nth_error (engs (sh s)) k) as [e|] eqn:Ee; [|apply nth_error_None in Ee; lia].
    assert ({In (EvStopBegin k) (trace (sh s))} + {~ In (EvStopBegin k) (trace (sh s))}) as [SB|SB] by (apply in_dec; repeat decide equality).
    + assert (e_multi e = true) as M by (apply (Inv10_reach quiet progs p q s R k e SB Ee)).
      assert (cur (sh s) <> Some k) as C.
      { intros C; destruct (I3 k SB) as (_ & K); destruct (K C) as (_ & [K2|(x & Hx & SX)]); [rewrite (leaked_reach quiet progs p q s NH R) in K2; discriminate K2|].
        assert (is_thread x) as TX by (unfold stopper, is_thread in *; destruct (abase x); [exact I|destruct SX]).
        destruct (TH x Hx TX) as [FX|(k1 & r1 & e1 & HD & _)]; [apply (fin_stack x FX TX); exact SX|].
        apply In_nth_error in Hx; destruct Hx as (a & Ha); destruct (top_base _ _ _ _ (IE a x Ha) HD) as (b & st & -> & B); unfold stopper in SX; cbn [abase] in SX; destruct b as [cs pc|]; [|exact SX]; rewrite (B cs pc eq_refl) in SX; exact SX. }
      destruct (I8 k C e Ee M) as (t1 & t2 & T & SE); destruct (stop_done quiet progs p q s k t1 t2 R T SE) as (P & l & L).
      pose proof (NP t1 t2 T) as NP1; assert (puts k (trace (sh s)) = puts k t1) as PE by (rewrite T; unfold puts in *; rewrite pick_app; cbn [pick]; rewrite NP1, app_nil_r; reflexivity).
      rewrite P; rewrite (F k) in PE; rewrite L in PE; rewrite <- app_assoc in PE; rewrite <- (app_nil_r (puts k t1)) in PE at 2; apply app_inv_head in PE; apply app_eq_nil in PE; destruct PE as (-> & Q0).
      rewrite (F k), Q0, app_nil_r; reflexivity.
    + eapply rest_done; [exact R|exact ST| |exact Ee|intros _; exact SB].
      intros x Hx TX; destruct (TH x Hx TX) as [FX|K]; [left; apply fin_stack; assumption|right; exact K].
Qed.

(** *** C19: from every reachable state, either the deadly embrace, or all the work can be finished. *)
Theorem C19_finish_or_embrace : forall progs p q s, never is_started progs -> never is_hook progs -> reachable quiet progs p q s ->
  exists ms, embrace (run quiet ms s) \/ all_done (run quiet ms s).
Proof.
  intros progs p q s NS NH R; destruct (progress progs p q NS NH _ s (Nat.le_refl _) R) as (ms & K); exists ms.
  assert (forall s, {embrace s} + {~ embrace s}) as dec.
  { clear; intros s; set (A := existsb (fun x => match hd_error (astack x) with Some (FWrite W3a _) => true | _ => false end) (actors s)).
    set (B := existsb (fun x => match abase x with BThread _ S2 => true | _ => false end) (actors s)).
    destruct (A && B) eqn:E.
    - left; apply andb_prop in E; destruct E as (EA & EB); apply existsb_exists in EA, EB; destruct EA as (x & Hx & X), EB as (y & Hy & Y); split.
      + destruct (hd_error (astack x)) as [[[] r|]|] eqn:HD; try discriminate X; exists x, r; auto.
      + destruct (abase y) as [cs [] |] eqn:AB; try discriminate Y; exists y, cs; auto.
    - right; intros ((x & r & Hx & X) & (y & cs & Hy & Y)); assert (A && B = true) as Z; [|congruence].
      apply andb_true_intro; split; apply existsb_exists; [exists x; rewrite X|exists y; rewrite Y]; auto. }
  destruct (dec (run quiet ms s)) as [E|E]; [left; exact E|right; eapply rest_all_done; [exact NH|apply reach_more; exact R|exact K|exact E]].
Qed.
(** Once the engine has been started there is no embrace. *)
Lemma started_run : forall nested ms s, started (sh s) = true -> started (sh (run nested ms s)) = true.
Proof.
  intros nested ms s H; pattern (run nested ms s); apply run_inv; [|exact H]; intros u v K (l1 & x & l2 & x' & g' & new & E & L & ->); cbn [sh].
  destruct (lm_gle _ _ _ _ _ _ _ _ L) as (_ & _ & S & _); auto.
Qed.
Theorem C19_started_no_embrace : forall nested progs p q s, never is_started progs -> reachable nested progs p q s -> started (sh s) = true -> ~ embrace s.
Proof.
  intros nested progs p q s N R S ((x & r & Hx & HX) & _); destruct (InvB_reach nested progs p q s N R) as (_ & _ & K & _).
  rewrite (K x Hx) in S; [discriminate S|left; exists r; destruct (astack x); [discriminate HX|injection HX as ->; left; reflexivity]].
Qed.
Theorem C19_started_finishes : forall progs p q s, never is_started progs -> never is_hook progs -> reachable quiet progs p q s -> started (sh s) = true ->
  exists ms, all_done (run quiet ms s).
Proof.
  intros progs p q s NS NH R S; destruct (C19_finish_or_embrace progs p q s NS NH R) as (ms & [E|K]); [|eauto].
  exfalso; eapply C19_started_no_embrace; [exact NS|apply reach_more; exact R|apply started_run; exact S|exact E].
Qed.

Lemma never_stopped : forall nested progs p q s, never is_set progs -> never is_hook progs -> reachable nested progs p q s -> forall k, ~ In (EvStopBegin k) (trace (sh s)).
Proof.
  intros nested progs p q s NS NH (ms & ->); induction ms as [|m ms IH] using rev_ind; [intros k []|]; rewrite run_app.
  pose proof (ex_intro _ ms eq_refl : reachable nested progs p q _) as R; set (u := run nested ms (init progs p q)) in *; change (run nested [m] u) with (do_move nested u m).
  destruct (do_move_trans nested m u) as [->|(l1 & x & l2 & x' & g' & new & E & H & Q)]; [exact IH|rewrite Q; cbn [sh]]; intros k Hk.
  destruct (lm_es _ _ _ _ _ _ _ _ H) as (es & T & B & _); rewrite T in Hk; apply in_app_or in Hk; destruct Hk as [Hk|Hk]; [exact (IH k Hk)|].
  destruct (B k Hk) as (_ & S & _); assert (In x (actors u)) as Hx by (rewrite E; apply in_mid).
  pose proof (unset_reach nested progs p q u NS R x Hx) as U; pose proof (avoids_reach nested is_hook progs p q u NH R x Hx) as V.
  unfold stop_of, unset, avoids in *; destruct (abase x) as [cs pc|]; [|discriminate S]; destruct pc; try discriminate S; [destruct U as (_ & U); discriminate U|destruct V as (_ & V); discriminate V].
Qed.
(** If nobody changes the settings there is no embrace and nobody is overtaken: from every reachable state all threads can
    come to their end, with every record written executed, exactly as often as it was written. *)
Theorem C19_unchanged_finishes : forall progs p q s, never is_started progs -> never is_hook progs -> never is_set progs -> reachable quiet progs p q s ->
  exists ms, (forall x, In x (actors (run quiet ms s)) -> finished x) /\
             Permutation (all_dones (trace (sh (run quiet ms s)))) (calls (trace (sh (run quiet ms s)))) /\ Permutation (rets (trace (sh (run quiet ms s)))) (calls (trace (sh (run quiet ms s)))).
Proof.
  intros progs p q s NS NH NC R; destruct (progress progs p q NS NH _ s (Nat.le_refl _) R) as (ms & AR); exists ms; set (u := run quiet ms s) in *.
  assert (reachable quiet progs p q u) as Ru by (apply reach_more; exact R).
  assert (~ embrace u) as NE.
  { intros (_ & (y & cs & Hy & B)); pose proof (unset_reach quiet progs p q u NC Ru y Hy) as U; unfold unset in U; rewrite B in U; destruct U as (_ & U); discriminate U. }
  destruct (rest_all_done progs p q u NH Ru AR NE) as (FI & PE); destruct AR as (ST & _); rewrite forallb_forall in ST.
  pose proof (never_stopped quiet progs p q u NC NH Ru) as NSt.
  assert (forall x, In x (actors u) -> finished x) as FIN.
  { intros x Hx; destruct (FI x Hx) as [K|(k & r & e & _ & _ & _ & _ & SE)]; [exact K|exfalso; apply (NSt k), (Inv10b_reach quiet progs p q u Ru); exact SE]. }
  pose proof (Inv_reachable quiet progs p q u Ru) as (_ & (IE & _) & (T1 & T2 & T3 & T4 & T5 & _) & _); pose proof (InvR_reach quiet progs p q u Ru) as IR.
  assert (forall x, In x (actors u) -> astack x = []) as SK.
  { intros x Hx; pose proof (FIN x Hx) as K; pose proof (ST x Hx) as S; destruct x as [[cs pc|k j pc] st].
    - apply fin_stack; [exact K|exact I].
    - apply In_nth_error in Hx; destruct Hx as (a & Ha); destruct (IE a _ Ha) as (_ & OK); cbn [abase astack base_ok] in OK; destruct OK as (e1 & _ & _ & _ & _ & X & _).
      unfold settled in S; cbn [abase] in S; destruct pc; try discriminate S; apply X; discriminate. }
  assert (forall f : nat -> frame -> nat, forall r, tot (fun x => tot (f r) (astack x)) (actors u) = 0) as Z by (intros f r; apply tot_zero; intros x Hx; rewrite (SK x Hx); reflexivity).
  pose proof (C19_no_crash quiet progs p q u Ru NS) as CR.
  split; [exact FIN|]; split; apply count_perm; intros r; specialize (T1 r); specialize (T2 r); specialize (T4 r); specialize (IR r); rewrite CR, times_nil in T1;
    pose proof (Z f_pre r) as Z1; pose proof (Z f_post r) as Z2; pose proof (Z f_runs r) as Z3; unfold a_pre, a_post, a_runs in *; rewrite Z1 in T1; rewrite Z2 in T2; rewrite Z3 in IR; [|lia].
  assert (queued r (sh u) = 0) as Q; [|lia].
  unfold queued; apply tot_zero; intros e He; apply In_nth_error in He; destruct He as (k & Ee).
  assert (k < length (engs (sh u))) as Lk by (apply nth_error_Some; congruence).
  pose proof (PE k Lk) as P; assert (Permutation (dones k (trace (sh u))) (puts k (trace (sh u)))) as P1.
  { apply P; intros t1 t2 T; exfalso; apply (NSt k); rewrite T; apply in_mid. }
  rewrite (Permutation_count_occ Nat.eq_dec) in P1; specialize (P1 r); specialize (T3 k r); fold (times r (dones k (trace (sh u)))) in P1; fold (times r (puts k (trace (sh u)))) in P1.
  rewrite (T5 k), times_app in P1; unfold queue_of in P1; rewrite Ee in P1; lia.
Qed.

(** *** C14: when handlers do not log, a record is written as often as the threads' programs say. *)
Definition writes (r : nat) (c : cmd) : nat := match c with CWrite r' => times r [r'] | _ => 0 end.
Definition to_write r (x : act) : nat := match abase x with BThread cs _ => tot (writes r) cs | _ => 0 end.
Lemma lm_writes : forall ex n x g x' g' new, lm quiet ex n x g x' g' new -> n_ok x -> forall r o,
  times r (calls (trace g)) + to_write r x + o = times r (calls (trace g')) + to_write r x' + tot (to_write r) new + o.
Proof.
  intros ex n x g x' g' new H N r0 o; mcases H; rewrite ?workers_zero by reflexivity; proj; rewrite ?tot_nil; rewrite ?store_trace; unfold to_write; cbn [abase] in *; ev; rewrite ?tot_cons; cbn [writes]; try lia.
  exfalso; unfold n_ok in N; cbn [abase astack] in N; destruct b, l as [|[] []]; exact N.
Qed.
Theorem C14_written_by_threads : forall progs p q s r, reachable quiet progs p q s -> times r (calls (trace (sh s))) + tot (to_write r) (actors s) = tot (tot (writes r)) progs.
Proof.
  intros progs p q s r (ms & ->); induction ms as [|m ms IH] using rev_ind.
  - cbn [run fold_left init sh actors trace]; unfold calls; cbn [pick]; rewrite times_nil; cbn [Nat.add]; induction progs as [|cs progs IH]; [reflexivity|]; cbn [map]; rewrite !tot_cons, IH; reflexivity.
  - rewrite run_app; pose proof (ex_intro _ ms eq_refl : reachable quiet progs p q _) as R; set (u := run quiet ms (init progs p q)) in *; change (run quiet [m] u) with (do_move quiet u m).
    destruct (do_move_trans quiet m u) as [->|(l1 & x & l2 & x' & g' & new & E & H & Q)]; [exact IH|rewrite Q; cbn [sh actors]].
    pose proof (lm_writes _ _ _ _ _ _ _ H (nok_reach progs p q u R x ltac:(rewrite E; apply in_mid)) r (tot (to_write r) l1 + tot (to_write r) l2)) as K.
    rewrite E in IH; rewrite !tot_app, !tot_cons in *; rewrite tot_app; lia.
Qed.

(** *** C21: without records written by handlers no worker is ever inside write. *)
Theorem C21_quiet_workers_free : forall progs p q s k x pc r, reachable quiet progs p q s -> In x (actors s) -> is_worker_of k x -> ~ In (FWrite pc r) (astack x).
Proof.
  intros progs p q s k x pc r R Hx W F; pose proof (nok_reach progs p q s R x Hx) as N; unfold is_worker_of, n_ok in *; destruct (abase x); [destruct W|].
  destruct (astack x) as [|[pc9 r9|k9 r9 [|r8 rest]] [|f st]]; try exact N; [destruct F|destruct F as [F|[]]; discriminate F].
Qed.

(** ** Examples and refutations *)
Definition tr (nested : nat -> list nat) (progs : list (list cmd)) (p q : nat) (ms : list move) : list event := trace (sh (run nested ms (init progs p q))).
Lemma reach_run : forall nested progs p q ms, reachable nested progs p q (run nested ms (init progs p q)).
Proof. intros nested progs p q ms; exists ms; reflexivity. Qed.

(** C14, C16, C17: two threads, three records. *)
Definition two := [[CWrite 1; CWrite 2]; [CWrite 3]].
Example ex_pool : tr quiet two 2 1 (rounds 30 4) =
  [EvCall 1; EvCall 3; EvInit; EvLoad 0; EvPut 0 1; EvStart 0 1; EvRet 1; EvDone 0 1; EvCall 2; EvPut 0 3; EvStart 0 3; EvRet 3; EvDone 0 3; EvPut 0 2; EvStart 0 2; EvRet 2; EvDone 0 2].
Proof. vm_compute; reflexivity. Qed.
Example ex_no_pool : tr quiet two 0 0 (rounds 30 4) =
  [EvCall 1; EvCall 3; EvInit; EvLoad 0; EvPut 0 1; EvStart 0 1; EvDone 0 1; EvRet 1; EvPut 0 3; EvStart 0 3; EvCall 2; EvDone 0 3; EvRet 3; EvPut 0 2; EvStart 0 2; EvDone 0 2; EvRet 2].
Proof. vm_compute; reflexivity. Qed.
(** A queue of one place is full: the writer of 2 waits until the worker has taken 1. *)
Example ex_full : let s := run quiet (solo 30 0) (init [[CWrite 1; CWrite 2]] 1 1) in
  puts 0 (trace (sh s)) = [1] /\ starts 0 (trace (sh s)) = [] /\ actors s = [mkAct (BThread [] TNext) [FWrite (W6 0) 2]; mkAct (BWorker 0 0 KGet) []].
Proof. vm_compute; auto. Qed.

(** C15, C18, C20: stopping with a record waiting; a reload; the exit hook. *)
Definition change := [[CWrite 1; CWrite 2]; [CSet KPool 3; CWrite 4]].
Example ex_reload : tr quiet change 1 0 (solo 15 0 ++ solo 12 1 ++ rounds 60 6) =
  [EvCall 1; EvInit; EvLoad 0; EvPut 0 1; EvRet 1; EvCall 2; EvStopBegin 0; EvPut 0 2; EvStart 0 1; EvRet 2; EvDone 0 1; EvStart 0 2; EvDone 0 2; EvStopEnd 0; EvLoad 1; EvReloaded; EvCall 4; EvPut 1 4; EvRet 4; EvStart 1 4; EvDone 1 4].
Proof. vm_compute; reflexivity. Qed.
Definition hook := [[CWrite 1; CHook]; [CWrite 2; CWrite 3]].
Example ex_hook : tr quiet hook 2 0 (solo 30 0 ++ concat (repeat [Go 2; Go 3; Go 0] 30) ++ rounds 20 4) =
  [EvCall 1; EvInit; EvLoad 0; EvPut 0 1; EvRet 1; EvHookLock; EvHookBlock; EvStopBegin 0; EvStart 0 1; EvDone 0 1; EvStopEnd 0; EvHookEnd; EvCall 2].
Proof. vm_compute; reflexivity. Qed.
(** Cut off by the time limit, the hook leaves record 1 unexecuted. *)
Example ex_hook_abort : tr quiet [[CWrite 1; CHook]] 1 0 (solo 30 0 ++ [Abort 0]) =
  [EvCall 1; EvInit; EvLoad 0; EvPut 0 1; EvRet 1; EvHookLock; EvHookBlock; EvStopBegin 0; EvHookAbort].
Proof. vm_compute; reflexivity. Qed.

Lemma puts_run : forall nested k ms s, exists l, puts k (trace (sh (run nested ms s))) = puts k (trace (sh s)) ++ l.
Proof.
  intros nested k ms s; induction ms as [|m ms IH] using rev_ind; [exists []; rewrite app_nil_r; reflexivity|]; rewrite run_app; change (run nested [m] (run nested ms s)) with (do_move nested (run nested ms s) m).
  destruct IH as (l & IH); destruct (do_trace nested (run nested ms s) m) as (es & -> & _); destruct (puts_prefix k (trace (sh (run nested ms s))) es) as (l' & ->); rewrite IH, <- app_assoc; eauto.
Qed.
(** "Changing the settings loses no record": false.  Thread 0 has chosen instance 0 for record 2; instance 0 is stopped; 2 is put on its
    queue; write returns; 2 is never executed. *)
Definition lost_ms := solo 15 0 ++ concat (repeat [Go 1; Go 2] 40) ++ solo 3 0.
Theorem C18_no_loss_refuted : exists progs p q s, reachable quiet progs p q s /\ In (EvRet 2) (trace (sh s)) /\ forall ms, ~ In 2 (all_starts (trace (sh (run quiet ms s)))).
Proof.
  exists [[CWrite 1; CWrite 2]; [CSet KPool 3]], 1, 0, (run quiet lost_ms (init [[CWrite 1; CWrite 2]; [CSet KPool 3]] 1 0)); split; [apply reach_run|].
  set (s := run quiet lost_ms (init [[CWrite 1; CWrite 2]; [CSet KPool 3]] 1 0)); split; [vm_compute; tauto|]; intros ms H.
  assert (reachable quiet [[CWrite 1; CWrite 2]; [CSet KPool 3]] 1 0 s) as R by apply reach_run.
  pose proof (reach_more quiet _ 1 0 s ms R) as R2.
  (* 2 has been put once, on instance 0, and instance 0 starts nothing more *)
  assert (starts 0 (trace (sh (run quiet ms s))) = [1]) as S0 by (rewrite (C18_lost quiet _ 1 0 s 0 R); [vm_compute; reflexivity|vm_compute; tauto]).
  assert (puts 0 (trace (sh s)) = [1; 2]) as P0 by (vm_compute; reflexivity).
  pose proof (Inv_reachable quiet _ 1 0 _ R2) as I2; pose proof I2 as (_ & _ & (T1 & _ & _ & T4 & T5 & _) & _).
  pose proof (C14_written_by_threads _ 1 0 _ 2 R2) as C1; assert (tot (tot (writes 2)) [[CWrite 1; CWrite 2]; [CSet KPool 3]] = 1) as W1 by reflexivity; rewrite W1 in C1.
  assert (exists l, puts 0 (trace (sh (run quiet ms s))) = [1; 2] ++ l) as (l & PL).
  { rewrite <- P0; apply puts_run. }
  pose proof (T5 0) as Q0; rewrite PL, S0 in Q0; cbn [app] in Q0; injection Q0 as Q0.
  assert (1 <= queued 2 (sh (run quiet ms s))) as Q1.
  { unfold queue_of in Q0; destruct (nth_error (engs (sh (run quiet ms s))) 0) as [e|] eqn:Ee; [|discriminate Q0].
    pose proof (tot_le (fun e => times 2 (e_queue e)) _ e (nth_error_In _ _ Ee)) as K; unfold queued; cbv beta in K; rewrite <- Q0 in K; change (times 2 (2 :: l)) with (S (times 2 l)) in K; lia. }
  specialize (T1 2); specialize (T4 2); apply (count_occ_In Nat.eq_dec) in H; unfold times in *; lia.
Qed.
(** "A write always returns": false.  The bounded queue of the stopped instance 0 is full; the writer of 3 waits for ever. *)
Definition three := [[CWrite 1; CWrite 2]; [CWrite 3]; [CSet KPool 3]].
Definition full_ms := solo 15 0 ++ solo 3 1 ++ concat (repeat [Go 2; Go 3] 40) ++ solo 3 0 ++ solo 3 1.
Theorem C18_writer_stuck_refuted : exists progs p q s a x, reachable quiet progs p q s /\ nth_error (actors s) a = Some x /\ ~ finished x /\ forall ms, nth_error (actors (run quiet ms s)) a = Some x.
Proof.
  exists three, 1, 1, (run quiet full_ms (init three 1 1)), 1, (mkAct (BThread [] TNext) [FWrite (W6 0) 3]); split; [apply reach_run|].
  split; [vm_compute; reflexivity|]; split; [intros []|]; intros ms; eapply (C18_stuck quiet three 1 1); [apply reach_run|vm_compute; reflexivity|].
  exists 3, (mkEng true 1 [2] 3 1 [true]); split; [reflexivity|]; split; [vm_compute; reflexivity|]; split; [reflexivity|]; split; [reflexivity|]; vm_compute; tauto.
Qed.

Lemma put_somewhere : forall r t, In r (all_puts t) -> exists k, In r (puts k t).
Proof.
  intros r t Hr; induction t as [|e t IH]; [destruct Hr|]; unfold all_puts, puts in *; cbn [pick] in Hr; destruct e; try (destruct (IH Hr) as (k' & K); exists k'; exact K).
  destruct Hr as [->|Hr]; [exists k; cbn [pick]; rewrite Nat.eqb_refl; left; reflexivity|destruct (IH Hr) as (k' & K); exists k'; cbn [pick]; destruct (Nat.eqb k k'); [right; exact K|exact K]].
Qed.
(** "The first write and a change of pool_size cannot deadlock": false. *)
Definition race := [[CWrite 1]; [CSet KPool 3]].
Theorem C19_deadlock_refuted : exists progs p q s, never is_started progs /\ never is_hook progs /\ reachable quiet progs p q s /\
  forall ms, embrace (run quiet ms s) /\ rets (trace (sh (run quiet ms s))) = [].
Proof.
  exists race, 2, 0, (run quiet (solo 4 0 ++ solo 3 1) (init race 2 0)); split; [|split; [|split; [apply reach_run|]]].
  - intros cs c Hcs Hc; repeat destruct Hcs as [<-|Hcs]; try (destruct Hcs; fail); destruct Hc as [<-|[]]; reflexivity.
  - intros cs c Hcs Hc; repeat destruct Hcs as [<-|Hcs]; try (destruct Hcs; fail); destruct Hc as [<-|[]]; reflexivity.
  - intros ms; set (s := run quiet (solo 4 0 ++ solo 3 1) (init race 2 0)); assert (reachable quiet race 2 0 s) as R by apply reach_run.
    assert (embrace s) as E by (vm_compute; split; [eexists _, 1; split; [left; reflexivity|reflexivity]|eexists _, []; split; [right; left; reflexivity|reflexivity]]).
    pose proof (C19_embrace_for_ever quiet race 2 0 s R E ms) as K; split; [exact K|].
    pose proof (reach_more quiet race 2 0 s ms R) as R2; pose proof (Inv_reachable quiet race 2 0 _ R2) as (_ & _ & (T1 & T2 & _) & (I1 & _) & _).
    assert (never is_started race) as NS by (intros cs c Hcs Hc; repeat destruct Hcs as [<-|Hcs]; try (destruct Hcs; fail); destruct Hc as [<-|[]]; reflexivity).
    (* the engine is not started, so nothing has been handed over *)
    assert (started (sh (run quiet ms s)) = false) as S.
    { destruct (started (sh (run quiet ms s))) eqn:S; [|reflexivity]; exfalso; eapply C19_started_no_embrace; [exact NS|exact R2|exact S|exact K]. }
    destruct (I1 S) as (Z & _); assert (all_puts (trace (sh (run quiet ms s))) = []) as P.
    { destruct (all_puts (trace (sh (run quiet ms s)))) as [|r l] eqn:P; [reflexivity|exfalso].
      destruct (put_somewhere r (trace (sh (run quiet ms s)))) as (k & Hk); [rewrite P; left; reflexivity|].
      rewrite (InvK_reach quiet race 2 0 _ R2 k) in Hk; [destruct Hk|rewrite Z; cbn; lia]. }
    destruct (rets (trace (sh (run quiet ms s)))) as [|r l]; [reflexivity|]; specialize (T2 r); rewrite P in T2; unfold times in T2; cbn in T2; destruct (Nat.eq_dec r r); [discriminate T2|contradiction].
Qed.
(** The same programs, scheduled in turn after the first write: all is finished. *)
Example ex_race_ok : let s := run quiet (solo 30 0 ++ rounds 60 8) (init race 2 0) in
  tr quiet race 2 0 (solo 30 0 ++ rounds 60 8) = [EvCall 1; EvInit; EvLoad 0; EvPut 0 1; EvRet 1; EvStart 0 1; EvDone 0 1; EvStopBegin 0; EvStopEnd 0; EvLoad 1; EvReloaded] /\ psize (sh s) = 3.
Proof. vm_compute; auto. Qed.

(** C21: the handler of record 1 logs record 2 while pool_size is being changed. *)
Definition nest (r : nat) : list nat := match r with 1 => [2] | _ => [] end.
Definition nest_ms := solo 12 0 ++ solo 2 2 ++ solo 8 1 ++ solo 4 2 ++ solo 10 1.
Theorem C21_deadlock_refuted : exists progs p q s, reachable nest progs p q s /\ forall ms, let s' := run nest ms s in
  (exists cs i, nth_error (actors s') 1 = Some (mkAct (BThread cs (S7 (PJoin 0 i))) [])) /\ (exists w r, nth_error (actors s') 2 = Some w /\ is_worker_of 0 w /\ hd_error (astack w) = Some (FWrite B1 r)).
Proof.
  exists race, 1, 0, (run nest nest_ms (init race 1 0)); split; [apply reach_run|]; intros ms.
  set (s := run nest nest_ms (init race 1 0)); assert (reachable nest race 1 0 s) as R by apply reach_run.
  assert (nth_error (actors s) 1 = Some (mkAct (BThread [] (S7 (PJoin 0 0))) [])) as H1 by (vm_compute; reflexivity).
  assert (nth_error (engs (sh s)) 0 = Some (mkEng true 0 [] 2 1 [true])) as H2 by (vm_compute; reflexivity).
  assert (nth_error (actors s) 2 = Some (mkAct (BWorker 0 0 KBusy) [FWrite B1 2; FExec 0 1 []])) as H3 by (vm_compute; reflexivity).
  destruct (C21_cycle_for_ever nest race 1 0 s 1 0 0 (mkEng true 0 [] 2 1 [true]) [] (mkAct (BWorker 0 0 KBusy) [FWrite B1 2; FExec 0 1 []]) 2 R H1 H2 (Nat.lt_0_succ 0) H3 eq_refl ms) as (A & B).
  split; [eauto|]; eexists _, 2; split; [exact B|split; reflexivity].
Qed.

(** *** C54: 'started' set by hand before the first write *)
(** As long as nobody changes pool_size or max_queue_size, no record is ever handed over and no write returns. *)
Lemma broken_stays : forall nested s, Inv s -> (forall x, In x (actors s) -> unset x) -> started (sh s) = true -> engs (sh s) = [] -> (forall x, In x (actors s) -> ~ at_pc x W3c) ->
  forall ms, engs (sh (run nested ms s)) = [].
Proof.
  intros nested s I0 U S E N ms.
  enough ((forall x, In x (actors (run nested ms s)) -> unset x) /\ started (sh (run nested ms s)) = true /\ engs (sh (run nested ms s)) = [] /\ (forall x, In x (actors (run nested ms s)) -> ~ at_pc x W3c)) as (_ & _ & K & _) by exact K.
  apply (stays nested (fun s => (forall x, In x (actors s) -> unset x) /\ started (sh s) = true /\ engs (sh s) = [] /\ (forall x, In x (actors s) -> ~ at_pc x W3c))); [|exact I0|auto].
  clear; intros s s' _ (U & S & E & N) (l1 & x & l2 & x' & g' & new & A & H & ->); cbn [actors sh].
  assert (In x (actors s)) as Hx by (rewrite A; apply in_mid).
  destruct (lm_gle _ _ _ _ _ _ _ _ H) as (_ & _ & SG & _).
  assert (engs g' = [] /\ ~ at_pc x' W3c) as (E' & N').
  { specialize (U x Hx); specialize (N x Hx); clear - H U N S E; mcases H; unfold unset, at_pc in *; cbn [abase astack] in *; proj; rewrite ?store_engs; try congruence;
      try (split; [try assumption; rewrite E; reflexivity|]);
      try (intros (r0 & [Q|Q]); [discriminate Q|apply N; exists r0; right; exact Q]);
      try (intros (r0 & [Q|[Q|Q]]); [discriminate Q|discriminate Q|apply N; exists r0; right; exact Q]);
      try (exact N); try (intros (r0 & Q); apply N; exists r0; right; exact Q); try (intros (r0 & [])).
    all: try (match goal with K : FWrite _ _ = FWrite _ _ |- _ => injection K as K _; subst end; first [destruct (wmode g)|destruct (started g)]; discriminate).
    all: try (exfalso; apply N; eexists; left; reflexivity). all: try (destruct U as (_ & U); discriminate U).
    all: try (match goal with K : FExec _ _ _ = _ |- _ => discriminate K | K : In _ [] |- _ => destruct K end).
    all: apply N; exists r0; right; assumption. }
  split; [|split; [apply SG; exact S|split; [exact E'|]]].
  - intros y Hy; apply in_cases in Hy; destruct Hy as [->|[Hy|Hy]]; [eapply lm_unset; [exact H|apply U; exact Hx]|apply U; rewrite A; apply in_old; exact Hy|].
    destruct (lm_new _ _ _ _ _ _ _ _ _ H Hy) as (k & j & ->); exact I.
  - intros y Hy; apply in_cases in Hy; destruct Hy as [->|[Hy|Hy]]; [exact N'|apply N; rewrite A; apply in_old; exact Hy|].
    destruct (lm_new _ _ _ _ _ _ _ _ _ H Hy) as (k & j & ->); intros (r & []).
Qed.
Theorem C54_no_engine : forall nested progs p q s, reachable nested progs p q s -> never is_set progs -> started (sh s) = true -> engs (sh s) = [] -> (forall x, In x (actors s) -> ~ at_pc x W3c) ->
  forall ms, all_puts (trace (sh (run nested ms s))) = [] /\ rets (trace (sh (run nested ms s))) = [].
Proof.
  intros nested progs p q s R NC S E N ms; pose proof (Inv_reachable nested progs p q s R) as I0; pose proof (broken_stays nested s I0 (unset_reach nested progs p q s NC R) S E N ms) as K.
  pose proof (reach_more nested progs p q s ms R) as R2; pose proof (Inv_reachable nested progs p q _ R2) as (_ & _ & (T1 & T2 & _) & _).
  set (u := run nested ms s) in *; clearbody u.
  assert (forall l, (forall r, times r l = 0) -> l = []) as Z by (intros [|r l] H; [reflexivity|]; specialize (H r); unfold times in H; cbn in H; destruct (Nat.eq_dec r r); [discriminate H|contradiction]).
  assert (all_puts (trace (sh u)) = []) as P.
  { apply Z; intros r; destruct (times r (all_puts (trace (sh u)))) eqn:C; [reflexivity|exfalso].
    assert (In r (all_puts (trace (sh u)))) as Hr by (apply (count_occ_In Nat.eq_dec); unfold times in C; lia).
    destruct (put_somewhere r (trace (sh u)) Hr) as (k & Hk); rewrite (InvK_reach nested progs p q u R2 k) in Hk; [destruct Hk|rewrite K; cbn; lia]. }
  split; [exact P|]; apply Z; intros r; specialize (T2 r); rewrite P, times_nil in T2; lia.
Qed.
(** Such a state is reached by config.set(started=True) before the first write; every write raises. *)
Definition by_hand := [[CStarted; CWrite 1; CWrite 2]].
Theorem C54_started_by_hand : let s := run quiet (solo 3 0) (init by_hand 2 0) in
  reachable quiet by_hand 2 0 s /\ never is_set by_hand /\ started (sh s) = true /\ engs (sh s) = [] /\ (forall x, In x (actors s) -> ~ at_pc x W3c) /\
  crashes (trace (sh (run quiet (solo 20 0) s))) = [1; 2].
Proof.
  split; [apply reach_run|]; split; [intros cs c [<-|[]] Hc; repeat destruct Hc as [<-|Hc]; try reflexivity; destruct Hc|].
  vm_compute; repeat split; auto; intros x [<-|[]] (r & []).
Qed.
(** Without the hypothesis that pool_size stays as it is: changing it loads an engine, and writing works from then on. *)
Example ex_repaired : tr quiet [[CStarted; CWrite 1; CSet KPool 3; CWrite 2]] 2 0 (rounds 60 4) = [EvCall 1; EvCrash 1; EvLoad 0; EvReloaded; EvCall 2; EvPut 0 2; EvRet 2; EvStart 0 2; EvDone 0 2].
Proof. vm_compute; reflexivity. Qed.
(** C55: before and after a change of pool_size. *)
Example ex_fits : let s := run quiet (solo 30 0 ++ rounds 60 8) (init race 2 0) in map e_count (engs (sh s)) = [2; 3] /\ cur (sh s) = Some 1 /\ psize (sh s) = 3.
Proof. vm_compute; auto. Qed.

Print Assumptions C14_at_most_once.
Print Assumptions C14_handed_over.
Print Assumptions C15_stop_flushes.
Print Assumptions C16_fifo.
Print Assumptions C16_pool_of_one.
Print Assumptions C16_no_pool.
Print Assumptions C17_settings.
Print Assumptions C18_reload_flushes.
Print Assumptions C18_no_loss_refuted.
Print Assumptions C19_started_finishes.
Print Assumptions C19_unchanged_finishes.
Print Assumptions C19_deadlock_refuted.
Print Assumptions C20_flushed.
Print Assumptions C20_nothing_later.
Print Assumptions C21_deadlock_refuted.
Print Assumptions C54_no_engine.
Print Assumptions C55_instance_fits.
