(** No state of the engine is doomed, when handlers do not write records: from every reachable state the work can be brought
    to an end, but for two situations that are spelled out. *)
From Verif Require Import Base Eng_Model Eng_Spec Eng_Moves Eng_Inv Eng_Struct Eng_Trace Eng_Stop Eng_Flush Eng_Hook Eng_Facts Eng_Sets Eng_Start.
From Coq Require Import Wf_nat.

Definition quiet : nat -> list nat := fun _ => [].
Local Notation trans := (trans quiet).

(** *** Call stacks *)
Definition n_ok (x : act) : Prop :=
  match abase x, astack x with
  | _, [] => True
  | BWorker _ _ _, [FExec _ _ []] => True
  | BThread _ _, [FWrite _ _] => True
  | BThread _ _, [FExec _ _ []; FWrite _ _] => True
  | _, _ => False
  end.
Lemma lm_nok : forall ex n x g x' g' new, lm quiet ex n x g x' g' new -> n_ok x -> n_ok x'.
Proof.
  intros ex n x g x' g' new H N; mcases H; unfold n_ok in *; cbn [abase astack quiet] in *; try exact I;
    try (destruct b; [|destruct N]; destruct l; [exact I|destruct N]).
  - destruct b; [|destruct N]; destruct l; [destruct N|destruct N].
  - destruct b; destruct l as [|[|] [|]]; try (destruct N; fail); exact I.
  - exact N.
  - exact N.
  - exact N.
Qed.
Lemma nok_reach : forall progs p q s, reachable quiet progs p q s -> forall x, In x (actors s) -> n_ok x.
Proof.
  intros progs p q s; apply (reach_inv quiet (fun s => forall x, In x (actors s) -> n_ok x)).
  - intros x Hx; apply in_map_iff in Hx; destruct Hx as (cs & <- & _); exact I.
  - intros s1 s2 _ _ A (l1 & x & l2 & x' & g' & new & E & H & ->) y Hy; cbn [actors] in Hy; apply in_cases in Hy; destruct Hy as [->|[Hy|Hy]].
    + eapply lm_nok; [exact H|]; apply A; rewrite E; apply in_mid.
    + apply A; rewrite E; apply in_old; exact Hy.
    + destruct (lm_new _ _ _ _ _ _ _ _ _ H Hy) as (k & j & ->); exact I.
Qed.

(** *** While a stop waits for the queue, no worker has been told to exit *)
Definition waiting (x : act) (k : nat) : Prop := exists cs, abase x = BThread cs (S7 (PWait k)).
Definition InvF (s : state) : Prop := forall x k e j, In x (actors s) -> waiting x k -> nth_error (engs (sh s)) k = Some e -> nth j (e_flags e) false = false.
Lemma lm_wait : forall nested ex n x g x' g' new k, lm nested ex n x g x' g' new -> waiting x' k ->
  (waiting x k /\ astack x <> []) \/ ((exists cs, abase x = BThread cs (S7 P0)) /\ cur g = Some k /\ engs g' = engs g).
Proof.
  intros nested ex n x g x' g' new k1 H (cs1 & Q); mcases H; cbn [abase] in Q; try discriminate Q; unfold waiting; cbn [abase astack] in *;
    try (left; split; [eauto|discriminate]); try discriminate Q; injection Q as <- <-; right; eauto.
Qed.
Lemma InvF_reach : forall nested progs p q s, reachable nested progs p q s -> InvF s.
Proof.
  intros nested progs p q s; apply (reach_inv nested InvF).
  - intros x k e j Hx; apply in_map_iff in Hx; destruct Hx as (cs & <- & _); intros (c & Q); discriminate Q.
  - intros s1 s2 I1 _ A (l1 & x & l2 & x' & g' & new & E & H & ->) y k e' j Hy; cbn [actors sh] in *; intros SY Ee'.
    pose proof I1 as (IA & (IE & _ & IC) & _ & _ & I2 & I3 & I4 & _).
    assert (In x (actors s1)) as Ix by (rewrite E; apply in_mid).
    assert (actor_ok (sh s1) (length l1) x) as Ax by (apply IE; rewrite E, nth_error_app2, Nat.sub_diag by lia; reflexivity).
    destruct (nth j (e_flags e') false) eqn:F; [exfalso|reflexivity].
    destruct (lm_flags _ _ _ _ _ _ _ _ H k e' Ee') as (LF & _).
    apply in_cases in Hy; destruct Hy as [->|[Hy|Hy]].
    + destruct (lm_wait _ _ _ _ _ _ _ _ _ H SY) as [((cs & Q1) & Q)|((cs & SX) & C & EG)].
      * destruct x as [b [|f st]]; [apply Q; reflexivity|]; cbn in Q1; subst b; destruct (frame_base _ _ _ _ _ Ax) as [(c1 & Z)|(k1 & j1 & Z)]; discriminate Z.
      * rewrite EG in Ee'; destruct I4 as (I4 & _); pose proof (I4 k e' j Ee' F) as SB.
        assert (0 < hE x) as HX by (unfold hE; rewrite SX; cbn; lia).
        destruct (uniq s1 l1 x l2 IA E ltac:(lia)) as (U & L0); specialize (L0 HX).
        destruct (I3 k SB) as (_ & K); destruct (K C) as (_ & [L|(z & Hz & SZ)]); [congruence|].
        rewrite E in Hz; apply in_rest in Hz; destruct Hz as [->|Hz]; [unfold stopper in SZ; rewrite SX in SZ; exact SZ|].
        pose proof (stopper_h _ SZ); destruct (U z Hz); lia.
    + assert (In y (actors s1)) as Iy by (rewrite E; apply in_old; exact Hy).
      assert (0 < hE y) as HY by (destruct SY as (cs & SY); unfold hE; rewrite SY; cbn; lia).
      destruct (LF j F) as [(e & Ee & Fe)|(i & SX)].
      * rewrite (A y k e j Iy SY Ee) in Fe; discriminate Fe.
      * destruct (uniq_other s1 l1 x l2 y IA E Hy ltac:(lia)) as (U1 & U2); pose proof (blocker_h _ (stop_blocker _ _ SX)); lia.
    + destruct (lm_new _ _ _ _ _ _ _ _ _ H Hy) as (k0 & j0 & ->); destruct SY as (c & SY); discriminate SY.
Qed.

(** *** Weights *)
Definition w_wt (pc : wpc) : nat :=
  match pc with W0 => 12 | W1 => 11 | W2 => 10 | W3a => 9 | W3b => 8 | W3c => 7 | W3d => 6 | W4 => 5 | W5 => 4 | W6 _ => 3 | W7 => 1
  | B1 => 5 | B2 => 4 | B3 _ => 3 | B4 => 1 end.
Definition f_wt (f : frame) : nat := match f with FWrite pc _ => w_wt pc | FExec _ _ rest => 1 + 13 * length rest end.
Definition p_wt (p : spc) : nat := match p with P0 => 10 | PWait _ => 9 | PFlag _ _ => 8 | PJoin _ _ => 7 | PActive => 6 | PEnd => 5 end.
Definition t_wt (pc : tpc) : nat :=
  match pc with TNext => 0 | S0 _ _ => 17 | S1 _ _ => 16 | S2 => 15 | S3 => 14 | S4 => 13 | S5 => 12 | S6 => 11 | S7 p => p_wt p
  | S8 => 4 | S9 => 3 | S10 => 2 | S11 => 1 | T0 => 2 | T1 => 1 | H1 => 12 | H2 => 11 | H3 p => p_wt p end.
Definition c_wt (c : cmd) : nat := match c with CWrite _ => 13 | CSet _ _ => 18 | CStarted => 3 | CHook => 13 end.
(** What a thread has still to do. *)
Definition th (x : act) : nat := match abase x with BThread cs pc => tot c_wt cs + t_wt pc + tot f_wt (astack x) | BWorker _ _ _ => 0 end.
Definition looping (x x' : act) : Prop := exists cs k i, (x = mkAct (BThread cs (S7 (PFlag k i))) [] /\ x' = mkAct (BThread cs (S7 (PFlag k (S i)))) []) \/
  (x = mkAct (BThread cs (S7 (PJoin k i))) [] /\ x' = mkAct (BThread cs (S7 (PJoin k (S i)))) []).
Definition is_thread (x : act) : Prop := match abase x with BThread _ _ => True | _ => False end.
Lemma lm_th : forall ex n x g x' g' new, lm quiet ex n x g x' g' new -> avoids is_hook x -> is_thread x -> th x' < th x \/ looping x x'.
Proof.
  intros ex n x g x' g' new H A T; mcases H; try (destruct A as (_ & A); discriminate A); try (destruct T; fail);
    try (right; do 3 eexists; first [left; split; reflexivity|right; split; reflexivity]); left; unfold th; cbn [abase astack] in *;
    try (destruct b; [|destruct T]); rewrite ?tot_cons, ?tot_nil; cbn [f_wt w_wt c_wt t_wt p_wt quiet length]; try lia.
  subst pc; destruct (wmode g); cbn; lia.
Qed.
Lemma lm_thw : forall ex n x g x' g' new, lm quiet ex n x g x' g' new -> ~ is_thread x -> ~ is_thread x' /\ th x' = th x /\ (forall k j pc, abase x = BWorker k j pc -> exists pc', abase x' = BWorker k j pc').
Proof.
  intros ex n x g x' g' new H T; mcases H; try (destruct (T I)); cbn [abase] in *.
  all: try (destruct b; [destruct (T I)|]; split; [intros []|split; [reflexivity|eauto]]).
  all: split; [intros []|split; [reflexivity|]]; intros k0 j0 pc0 Q; injection Q as <- <- <-; eauto.
Qed.

Lemma go : forall s a x x' g' new, nth_error (actors s) a = Some x -> lstep quiet (is_exited (actors s)) (length (actors s)) x (sh s) = Some (x', g', new) ->
  exists l1 l2, actors s = l1 ++ x :: l2 /\ length l1 = a /\ do_move quiet s (Go a) = mkState (l1 ++ x' :: l2 ++ new) g' /\
    lm quiet (is_exited (actors s)) (length (actors s)) x (sh s) x' g' new.
Proof.
  intros s a x x' g' new E L; pose proof E as E2; apply nth_error_split in E2; destruct E2 as (l1 & l2 & E2 & <-); exists l1, l2.
  split; [exact E2|]; split; [reflexivity|]; split; [|apply lstep_lm; exact L].
  unfold do_move, step; rewrite E, L, E2, upd_app, <- app_assoc; reflexivity.
Qed.
Lemma reach_more : forall nested progs p q s ms, reachable nested progs p q s -> reachable nested progs p q (run nested ms s).
Proof. intros nested progs p q s ms (m0 & ->); exists (m0 ++ ms); rewrite run_app; reflexivity. Qed.

(** *** Workers come to rest *)
Definition flag (g : shared) (k j : nat) : bool := match nth_error (engs g) k with Some e => nth j (e_flags e) false | None => false end.
Definition no_queue (g : shared) (k : nat) : bool := match nth_error (engs g) k with Some e => match e_queue e with [] => true | _ => false end | None => true end.
Definition wk (g : shared) (x : act) : nat :=
  match abase x with
  | BThread _ _ => 0
  | BWorker k j pc => (match pc with KGet => 2 | KCheck => if flag g k j then 1 else 3 | KBusy => 3 | KExit => 0 end) + length (astack x)
  end.
Definition qs (g : shared) : nat := tot (fun e => 3 * length (e_queue e)) (engs g).
Definition settled (g : shared) (x : act) : bool :=
  match abase x with
  | BThread _ _ => true
  | BWorker k j KExit => true
  | BWorker k j KGet => no_queue g k && negb (flag g k j)
  | _ => false
  end.
Lemma tot_upd2 : forall {A} (f : A -> nat) l k x y, nth_error l k = Some x -> tot f (upd l k y) + f x = tot f l + f y.
Proof.
  intros A f l k x y E; apply nth_error_split in E; destruct E as (l1 & l2 & -> & <-); rewrite upd_app, !tot_app, !tot_cons; lia.
Qed.
Lemma worker_moves : forall ex n x g a, actor_ok g a x -> n_ok x -> ~ is_thread x -> settled g x = false ->
  exists x' g', lstep quiet ex n x g = Some (x', g', []) /\ (forall k j, flag g' k j = flag g k j) /\ wk g x' + qs g' < wk g x + qs g.
Proof.
  intros ex n [b st] g a (_ & B) N T S; destruct b as [cs pc|k j pc]; [destruct (T I)|]; unfold n_ok, settled in *; cbn [abase astack base_ok] in *.
  destruct B as (e & Ee & M & _ & J & ST & X); unfold lstep, kstep; cbn [abase astack].
  destruct st as [|f st].
  - destruct pc; rewrite ?Ee.
    + unfold no_queue, flag in S; rewrite Ee in S; destruct (e_queue e) as [|r l] eqn:Q.
      * cbn in S; apply negb_false_iff in S; exists (mkAct (BWorker k j KCheck) []), g; split; [reflexivity|]; split; [reflexivity|].
        unfold wk, flag; cbn [abase astack]; rewrite Ee, S; cbn [length]; lia.
      * exists (mkAct (BWorker k j KBusy) [FExec k r []]), (emit (set_eng g k (set_queue e l)) [EvStart k r]); split; [reflexivity|]; split.
        -- intros k1 j1; unfold flag; cbn [emit set_eng engs]; rewrite nth_error_upd; destruct (Nat.eqb_spec k1 k) as [->|]; [rewrite Ee; reflexivity|reflexivity].
        -- unfold wk, qs; cbn [abase astack emit set_eng engs]; pose proof (tot_upd2 (fun e => 3 * length (e_queue e)) (engs g) k e (set_queue e l) Ee) as U.
           cbn [set_queue e_queue] in U; rewrite Q in U; cbn [length] in *; lia.
    + destruct (nth j (e_flags e) false) eqn:F; eexists _, g; (split; [reflexivity|]); (split; [reflexivity|]);
        unfold wk, flag; cbn [abase astack]; rewrite Ee, F; cbn [length]; lia.
    + eexists _, g; (split; [reflexivity|]); (split; [reflexivity|]); unfold wk; cbn [abase astack length]; lia.
    + discriminate S.
  - destruct f as [pc0 r|k0 r [|y rest]]; [destruct N| |destruct N]; destruct st as [|f st]; [|destruct N].
    cbn [fstep]; eexists _, _; (split; [reflexivity|]); (split; [reflexivity|]).
    unfold wk, qs; cbn [abase astack emit engs length app]; unfold flag; destruct pc; try lia.
Qed.
Lemma settle : forall progs p q n s, tot (wk (sh s)) (actors s) + qs (sh s) <= n -> reachable quiet progs p q s ->
  exists ms, tot th (actors (run quiet ms s)) = tot th (actors s) /\ forallb (settled (sh (run quiet ms s))) (actors (run quiet ms s)) = true.
Proof.
  intros progs p q; induction n as [n IH] using lt_wf_ind; intros s L R.
  destruct (forallb (settled (sh s)) (actors s)) eqn:F; [exists []; split; [reflexivity|exact F]|].
  assert (exists x, In x (actors s) /\ settled (sh s) x = false) as (x & Hx & Sx).
  { clear - F; induction (actors s) as [|y l IH]; [discriminate F|]; cbn in F; destruct (settled (sh s) y) eqn:Y; [|exists y; split; [left; reflexivity|exact Y]].
    destruct (IH F) as (x & A & B); exists x; split; [right; exact A|exact B]. }
  apply In_nth_error in Hx as Hx2; destruct Hx2 as (a & Ha).
  pose proof (Inv_reachable quiet progs p q s R) as (_ & (IE & _) & _).
  pose proof (nok_reach progs p q s R x Hx) as NX.
  assert (~ is_thread x) as TX by (intros Q; unfold settled, is_thread in *; destruct (abase x); [discriminate Sx|destruct Q]).
  destruct (worker_moves (is_exited (actors s)) (length (actors s)) x (sh s) a (IE a x Ha) NX TX Sx) as (x' & g' & ST & FL & DEC).
  destruct (go s a x x' g' [] Ha ST) as (l1 & l2 & E & _ & DM & LM).
  destruct (lm_thw _ _ _ _ _ _ _ LM TX) as (_ & TH & _).
  assert (forall y, wk g' y = wk (sh s) y) as WK by (intros y; unfold wk; destruct (abase y) as [|k j pc]; [reflexivity|]; rewrite FL; reflexivity).
  assert (tot (wk g') (l1 ++ x' :: l2 ++ []) + qs g' < n) as L2.
  { assert (forall l, tot (wk g') l = tot (wk (sh s)) l) as W by (intros l; unfold tot; f_equal; apply map_ext; exact WK).
    rewrite W; rewrite E in L; rewrite !tot_app, !tot_cons in *; rewrite tot_app, tot_nil in *; lia. }
  destruct (IH _ L2 (mkState (l1 ++ x' :: l2 ++ []) g')) as (ms & M1 & M2); [cbn [actors sh]; lia|rewrite <- DM; apply (reach_more _ _ _ _ _ [Go a] R)|].
  exists (Go a :: ms); change (run quiet (Go a :: ms) s) with (run quiet ms (do_move quiet s (Go a))); rewrite DM; split; [|exact M2].
  rewrite M1; cbn [actors]; rewrite E, !tot_app, !tot_cons, tot_app, TH, tot_nil; lia.
Qed.

(** *** The loops of stop *)
Lemma lstep_flag : forall ex n cs k i e g, nth_error (engs g) k = Some e ->
  lstep quiet ex n (mkAct (BThread cs (S7 (PFlag k i))) []) g =
    if Nat.ltb i (e_count e) then Some (mkAct (BThread cs (S7 (PFlag k (S i)))) [], set_eng g k (set_flags e (upd (e_flags e) i true)), [])
    else Some (mkAct (BThread cs (S7 (PJoin k 0))) [], g, []).
Proof. intros ex n cs k i e g E; cbn [lstep abase astack tstep pstep]; rewrite E; destruct (Nat.ltb i (e_count e)); reflexivity. Qed.
Lemma lstep_join : forall ex n cs k i e g, nth_error (engs g) k = Some e -> (i < e_count e -> ex (e_first e + i) = true) ->
  lstep quiet ex n (mkAct (BThread cs (S7 (PJoin k i))) []) g =
    if Nat.ltb i (e_count e) then Some (mkAct (BThread cs (S7 (PJoin k (S i)))) [], g, [])
    else Some (mkAct (BThread cs (S7 PActive)) [], emit g [EvStopEnd k], []).
Proof. intros ex n cs k i e g E X; cbn [lstep abase astack tstep pstep]; rewrite E; destruct (Nat.ltb_spec i (e_count e)) as [L|L]; [rewrite (X L)|]; reflexivity. Qed.
Lemma flag_loop : forall n s a cs k i e, nth_error (actors s) a = Some (mkAct (BThread cs (S7 (PFlag k i))) []) -> nth_error (engs (sh s)) k = Some e ->
  e_count e - i = n -> exists ms, tot th (actors (run quiet ms s)) < tot th (actors s).
Proof.
  induction n as [|n IH]; intros s a cs k i e A E C.
  - pose proof (lstep_flag (is_exited (actors s)) (length (actors s)) cs k i e (sh s) E) as L.
    destruct (Nat.ltb_spec i (e_count e)) as [Q|Q]; [lia|].
    destruct (go _ _ _ _ _ _ A L) as (l1 & l2 & E1 & _ & DM & _); exists [Go a]; change (run quiet [Go a] s) with (do_move quiet s (Go a)); rewrite DM; cbn [actors].
    rewrite E1, !tot_app, !tot_cons, tot_app, tot_nil; unfold th; cbn [abase astack t_wt p_wt]; lia.
  - pose proof (lstep_flag (is_exited (actors s)) (length (actors s)) cs k i e (sh s) E) as L.
    destruct (Nat.ltb_spec i (e_count e)) as [Q|Q]; [|lia].
    destruct (go _ _ _ _ _ _ A L) as (l1 & l2 & E1 & LA & DM & _).
    destruct (IH (do_move quiet s (Go a)) a cs k (S i) (set_flags e (upd (e_flags e) i true))) as (ms & M).
    + rewrite DM; cbn [actors]; rewrite <- LA, nth_error_app2, Nat.sub_diag by lia; reflexivity.
    + rewrite DM; cbn [sh set_eng engs]; rewrite nth_error_upd, Nat.eqb_refl, E; reflexivity.
    + cbn [set_flags e_count]; lia.
    + exists (Go a :: ms); change (run quiet (Go a :: ms) s) with (run quiet ms (do_move quiet s (Go a))).
      eapply Nat.lt_le_trans; [exact M|]; rewrite DM; cbn [actors]; rewrite E1, !tot_app, !tot_cons, tot_app, tot_nil; unfold th; cbn [abase astack t_wt p_wt]; lia.
Qed.
Lemma exited_upd : forall l1 b st b' st' l2 i, is_exited (l1 ++ mkAct (BThread b st) [] :: l2) i = is_exited (l1 ++ mkAct (BThread b' st') [] :: l2) i.
Proof.
  intros l1 b st b' st' l2 i; unfold is_exited; destruct (Nat.lt_ge_cases i (length l1)) as [L|L]; [rewrite !nth_error_app1 by exact L; reflexivity|].
  rewrite !nth_error_app2 by exact L; destruct (i - length l1); reflexivity.
Qed.
Lemma join_loop : forall n s a cs k i e, nth_error (actors s) a = Some (mkAct (BThread cs (S7 (PJoin k i))) []) -> nth_error (engs (sh s)) k = Some e ->
  (forall j, j < e_count e -> is_exited (actors s) (e_first e + j) = true) ->
  e_count e - i = n -> exists ms, tot th (actors (run quiet ms s)) < tot th (actors s).
Proof.
  induction n as [|n IH]; intros s a cs k i e A E X C;
    pose proof (lstep_join (is_exited (actors s)) (length (actors s)) cs k i e (sh s) E (X i)) as L; destruct (Nat.ltb_spec i (e_count e)) as [Q|Q]; try lia.
  - destruct (go _ _ _ _ _ _ A L) as (l1 & l2 & E1 & _ & DM & _); exists [Go a]; change (run quiet [Go a] s) with (do_move quiet s (Go a)); rewrite DM; cbn [actors].
    rewrite E1, !tot_app, !tot_cons, tot_app, tot_nil; unfold th; cbn [abase astack t_wt p_wt]; lia.
  - destruct (go _ _ _ _ _ _ A L) as (l1 & l2 & E1 & LA & DM & _).
    destruct (IH (do_move quiet s (Go a)) a cs k (S i) e) as (ms & M).
    + rewrite DM; cbn [actors]; rewrite <- LA, nth_error_app2, Nat.sub_diag by lia; reflexivity.
    + rewrite DM; exact E.
    + rewrite DM; cbn [actors]; intros j J; rewrite app_nil_r; specialize (X j J); rewrite E1 in X; rewrite <- X; apply exited_upd.
    + lia.
    + exists (Go a :: ms); change (run quiet (Go a :: ms) s) with (run quiet ms (do_move quiet s (Go a))).
      eapply Nat.lt_le_trans; [exact M|]; rewrite DM; cbn [actors]; rewrite E1, !tot_app, !tot_cons, tot_app, tot_nil; unfold th; cbn [abase astack t_wt p_wt]; lia.
Qed.

(** *** Why a thread cannot move *)
Inductive blocked (ex : nat -> bool) (g : shared) : act -> Prop :=
| bl_fin : blocked ex g (mkAct (BThread [] TNext) [])
| bl_w1 : forall cs r, elock g = true -> blocked ex g (mkAct (BThread cs TNext) [FWrite W1 r])
| bl_b1 : forall cs r, elock g = true -> blocked ex g (mkAct (BThread cs TNext) [FWrite B1 r])
| bl_s2 : forall cs, elock g = true -> blocked ex g (mkAct (BThread cs S2) [])
| bl_s5 : forall cs, elock g = true -> blocked ex g (mkAct (BThread cs S5) [])
| bl_w3a : forall cs r, slock g = true -> blocked ex g (mkAct (BThread cs TNext) [FWrite W3a r])
| bl_s0 : forall cs k v, slock g = true -> blocked ex g (mkAct (BThread cs (S0 k v)) [])
| bl_w6 : forall cs k r e, nth_error (engs g) k = Some e -> e_multi e = true -> room e = false -> blocked ex g (mkAct (BThread cs TNext) [FWrite (W6 k) r])
| bl_b3 : forall cs k r e, nth_error (engs g) k = Some e -> e_multi e = true -> room e = false -> blocked ex g (mkAct (BThread cs TNext) [FWrite (B3 k) r])
| bl_wait : forall cs k e, nth_error (engs g) k = Some e -> e_queue e <> [] -> blocked ex g (mkAct (BThread cs (S7 (PWait k))) [])
| bl_join : forall cs k i e, nth_error (engs g) k = Some e -> i < e_count e -> ex (e_first e + i) = false -> blocked ex g (mkAct (BThread cs (S7 (PJoin k i))) []).

Lemma why : forall ex n x g a, actor_ok g a x -> n_ok x -> is_thread x -> avoids is_hook x -> avoids is_started x -> lstep quiet ex n x g = None -> blocked ex g x.
Proof.
  intros ex n [b st] g a OK N T A A2 L; destruct b as [cs pc|]; [|destruct T]; unfold lstep in L; cbn [abase astack] in *; unfold n_ok in N; cbn [abase astack] in N.
  destruct st as [|f st].
  - destruct OK as (_ & _ & OK); cbn in OK; unfold tstep in L; destruct pc as [|k v|k v| | | | | |p| | | | | | | | |p]; try discriminate L.
    + destruct cs as [|[r|k v| |] cs]; try discriminate L; constructor.
    + destruct (slock g) eqn:S; [|discriminate L]; constructor; exact S.
    + destruct (conflict g k v); [discriminate L|]; destruct (Nat.eqb (value_of g k) v); discriminate L.
    + destruct (elock g) eqn:S; [|discriminate L]; constructor; exact S.
    + destruct (elock g) eqn:S; [|discriminate L]; constructor; exact S.
    + destruct p as [|k|k i|k i| |]; try discriminate L; cbn [pstep] in L.
      * destruct (cur g) as [k|]; [|discriminate L]; destruct (nth_error (engs g) k) as [e|]; [|discriminate L]; destruct (e_multi e); discriminate L.
      * cbn in OK; destruct OK as (e & E & _); rewrite E in L; destruct (e_queue e) eqn:Q; [discriminate L|]; econstructor; [exact E|congruence].
      * cbn in OK; destruct OK as (e & E & _); rewrite E in L; destruct (Nat.ltb i (e_count e)); discriminate L.
      * cbn in OK; destruct OK as (e & E & _); rewrite E in L; destruct (Nat.ltb_spec i (e_count e)) as [Q|Q]; [|discriminate L].
        destruct (ex (e_first e + i)) eqn:X; [discriminate L|]; econstructor; eassumption.
    + destruct A2 as (_ & A2); discriminate A2.
    + destruct A as (_ & A); discriminate A.
    + destruct A as (_ & A); discriminate A.
  - destruct (frame_base _ _ _ _ _ OK) as [(c1 & Z)|(k1 & j1 & Z)]; [|discriminate Z]; injection Z as -> ->.
    destruct OK as (SO & _); cbn [abase astack stack_ok] in SO.
    destruct f as [wp r|k r [|y rest]]; [|discriminate L|destruct N].
    destruct st as [|f st]; [|destruct N].
    destruct (fstep quiet n (FWrite wp r) g) as [[[g1 fs] new1]|] eqn:F; [discriminate L|]; clear L.
    destruct wp as [| | | | | | | | |k| | | |k|]; cbn [fstep] in F; try discriminate F.
    + destruct (elock g) eqn:S; [|discriminate F]; constructor; exact S.
    + destruct (slock g) eqn:S; [|discriminate F]; constructor; exact S.
    + destruct (started g); discriminate F.
    + destruct (cur g); discriminate F.
    + unfold hand_over in F; destruct SO as (SO & _); apply nth_error_Some in SO; destruct (nth_error (engs g) k) as [e|] eqn:E; [|congruence].
      destruct (e_multi e) eqn:M; [|discriminate F]; destruct (room e) eqn:RM; [discriminate F|]; econstructor; eassumption.
    + destruct (elock g) eqn:S; [|discriminate F]; constructor; exact S.
    + destruct (cur g); discriminate F.
    + unfold hand_over in F; destruct SO as (SO & _); apply nth_error_Some in SO; destruct (nth_error (engs g) k) as [e|] eqn:E; [|congruence].
      destruct (e_multi e) eqn:M; [|discriminate F]; destruct (room e) eqn:RM; [discriminate F|]; econstructor; eassumption.
Qed.

Lemma leaked_reach : forall nested progs p q s, never is_hook progs -> reachable nested progs p q s -> leaked (sh s) = false.
Proof.
  intros nested progs p q s N R; assert ((forall x, In x (actors s) -> avoids is_hook x) /\ leaked (sh s) = false) as [_ K]; [|exact K].
  revert s R; apply (reach_inv nested (fun s => (forall x, In x (actors s) -> avoids is_hook x) /\ leaked (sh s) = false)).
  - split; [|reflexivity]; intros x Hx; apply in_map_iff in Hx; destruct Hx as (cs & <- & Hcs); split; [intros c Hc; apply (N cs c Hcs Hc)|exact I].
  - intros s1 s2 _ _ (A & B) (l1 & x & l2 & x' & g' & new & E & H & ->); cbn [actors sh] in *.
    assert (avoids is_hook x) as Ax by (apply A; rewrite E; apply in_mid); split.
    + intros y Hy; apply in_cases in Hy; destruct Hy as [->|[Hy|Hy]].
      * eapply lm_avoids; [exact H|exact Ax].
      * apply A; rewrite E; apply in_old; exact Hy.
      * destruct (lm_new _ _ _ _ _ _ _ _ _ H Hy) as (k & j & ->); exact I.
    + mcases H; proj; rewrite ?store_leaked; try exact B; destruct Ax as (_ & Ax); discriminate Ax.
Qed.
Lemma tot_pos : forall {A} (f : A -> nat) l, 0 < tot f l -> exists x, In x l /\ 0 < f x.
Proof.
  induction l as [|y l IH]; intros H; [rewrite tot_nil in H; lia|]; rewrite tot_cons in H; destruct (Nat.eq_dec (f y) 0) as [Z|Z].
  - destruct IH as (x & Ha & Hb); [lia|]; exists x; split; [right; exact Ha|exact Hb].
  - exists y; split; [left; reflexivity|lia].
Qed.

Lemma stuck : forall progs p q s, never is_started progs -> never is_hook progs -> reachable quiet progs p q s ->
  forallb (settled (sh s)) (actors s) = true ->
  (forall x, In x (actors s) -> is_thread x -> blocked (is_exited (actors s)) (sh s) x) ->
  embrace s \/ (forall x, In x (actors s) -> is_thread x -> finished x \/ exists k, late s k x).
Proof.
  intros progs p q s NS NH R ST BL.
  pose proof (Inv_reachable quiet progs p q s R) as (IA & (IE & IB & IC) & _ & I1 & I2 & I3 & I4 & _ & _ & _ & I8 & _).
  pose proof (InvF_reach quiet progs p q s R) as IF.
  pose proof (InvB_reach quiet progs p q s NS R) as (_ & _ & HB3 & _).
  pose proof (leaked_reach quiet progs p q s NH R) as LK.
  pose proof (nok_reach progs p q s R) as NO.
  rewrite forallb_forall in ST.
  assert (forall k e j, nth_error (engs (sh s)) k = Some e -> j < e_count e -> exists pc, nth_error (actors s) (e_first e + j) = Some (mkAct (BWorker k j pc) []) /\
    ((pc = KExit /\ nth j (e_flags e) false = true) \/ (pc = KGet /\ e_queue e = [] /\ nth j (e_flags e) false = false))) as WS.
  { intros k e j Ee J; destruct (IB k e Ee) as (_ & _ & _ & W); destruct (W j J) as (x & Hx & SX); pose proof (IE _ _ Hx) as OK.
    destruct x as [[cs pc|k0 j0 pc] st]; cbn in SX; [discriminate SX|]; injection SX as -> ->; exists pc.
    destruct OK as (_ & e1 & E1 & _ & _ & _ & K1 & K2); cbn [abase astack base_ok] in *; rewrite Ee in E1; injection E1 as <-.
    specialize (ST _ (nth_error_In _ _ Hx)); cbn in ST; destruct pc; try discriminate ST; rewrite K1 in * by discriminate; (split; [exact Hx|]).
    - right; apply andb_prop in ST; destruct ST as (S1 & S2); unfold no_queue, flag in *; rewrite Ee in *; split; [reflexivity|]; split; [destruct (e_queue e); [reflexivity|discriminate S1]|].
      destruct (nth j (e_flags e) false); [discriminate S2|reflexivity].
    - left; auto. }
  assert (forall k e, nth_error (engs (sh s)) k = Some e -> e_multi e = true -> e_queue e <> [] -> nth 0 (e_flags e) false = true) as F0.
  { intros k e Ee M Q; destruct (IB k e Ee) as (C & _); apply C in M; destruct (WS k e 0 Ee M) as (pc & _ & [(_ & K)|(_ & K & _)]); [exact K|contradiction]. }
  assert (forall e, room e = false -> e_queue e <> []) as RQ.
  { intros e Q Z; unfold room in Q; rewrite Z in Q; apply orb_false_iff in Q; destruct Q as (Q1 & Q2); apply Nat.eqb_neq in Q1; apply Nat.ltb_ge in Q2; cbn in Q2; lia. }
  assert (forall x k, In x (actors s) -> waiting x k -> blocked (is_exited (actors s)) (sh s) x -> False) as F2.
  { intros x k Hx (cs & W) B; destruct B as [| | | | | | | | | |]; cbn in W; try discriminate W; injection W as -> ->.
    apply In_nth_error in Hx as Hx2; destruct Hx2 as (a & Ha); destruct (IE a _ Ha) as (_ & _ & OK); cbn in OK; destruct OK as (e1 & E1 & M); rewrite H in E1; injection E1 as <-.
    pose proof (F0 k e H M H0) as F; rewrite (IF _ k e 0 Hx (ex_intro _ cs eq_refl) H) in F; discriminate F. }
  assert (forall x k i cs, In x (actors s) -> abase x = BThread cs (S7 (PJoin k i)) -> blocked (is_exited (actors s)) (sh s) x -> False) as F3.
  { intros x k i cs Hx W B; destruct B as [| | | | | | | | | |]; cbn in W; try discriminate W; injection W as -> -> ->.
    apply In_nth_error in Hx as Hx2; destruct Hx2 as (a & Ha); destruct (IE a _ Ha) as (_ & _ & OK); cbn in OK; destruct OK as (e1 & E1 & M & FL); rewrite H in E1; injection E1 as <-.
    destruct (WS k e i H H0) as (pc & Hw & [(-> & _)|(_ & _ & K)]); [unfold is_exited in H1; rewrite Hw in H1; discriminate H1|rewrite FL in K by assumption; discriminate K]. }
  assert (forall x, In x (actors s) -> ~ stopper x) as F5.
  { intros x Hx SX; assert (is_thread x) as TX by (unfold stopper, is_thread in *; destruct (abase x); [exact I|destruct SX]).
    specialize (BL x Hx TX); destruct (BL) eqn:Z; clear Z; cbn in SX; try (destruct SX; fail); [eapply F2|eapply F3]; try exact Hx; try exact BL; [eexists; reflexivity|reflexivity]. }
  assert (forall x k r, In x (actors s) -> In (FWrite (B3 k) r) (astack x) -> blocked (is_exited (actors s)) (sh s) x -> False) as F4.
  { intros x k r Hx Hf B; destruct B as [| | | | | | | | | |]; cbn in Hf; intuition (try discriminate); injection H2 as -> ->.
    assert (at_pc (mkAct (BThread cs TNext) [FWrite (B3 k) r]) (B3 k)) as AT by (exists r; left; reflexivity).
    destruct (I2 _ Hx) as (_ & _ & C & _); specialize (C k AT).
    destruct I4 as (I4 & _); pose proof (I4 k e 0 H (F0 k e H H0 (RQ e H1))) as SB; destruct (I3 k SB) as (_ & K).
    destruct (K C) as (_ & [L|(z & Hz & SZ)]); [congruence|apply (F5 z Hz SZ)]. }
  assert (forall x, In x (actors s) -> ~ is_thread x -> hE x = 0 /\ hL x = 0) as WZ.
  { intros x Hx T; specialize (NO x Hx); destruct x as [[cs pc|k j pc] st]; [destruct (T I)|]; unfold n_ok, hE, hL in *; cbn [abase astack] in *.
    destruct st as [|[|k0 r [|]] [|]]; try (destruct NO; fail); split; reflexivity. }
  assert (elock (sh s) = true -> exists x r, In x (actors s) /\ astack x = [FWrite W3a r] /\ slock (sh s) = true) as F6.
  { intros EL; destruct IA as (IA & _); rewrite EL, LK in IA; cbn [b2n] in IA.
    destruct (tot_pos hE (actors s)) as (x & Hx & P); [lia|].
    assert (is_thread x) as TX by (destruct x as [[cs pc|k j pc] st]; [exact I|]; destruct (WZ _ Hx) as (Z & _); [intros []|lia]).
    pose proof (BL x Hx TX) as BX; pose proof BX as BX2; destruct BX2; unfold hE in P; cbn in P; try lia.
    - eexists _, r; split; [exact Hx|]; split; [reflexivity|assumption].
    - exfalso; eapply F4; [exact Hx|left; reflexivity|exact BX].
    - exfalso; eapply F2; [exact Hx|eexists; reflexivity|exact BX].
    - exfalso; eapply F3; [exact Hx|reflexivity|exact BX]. }
  assert (slock (sh s) = true -> embrace s) as F7.
  { intros SL; destruct IA as (_ & IA & _); rewrite SL in IA; cbn [b2n] in IA.
    destruct (tot_pos hL (actors s)) as (x & Hx & P); [lia|].
    assert (is_thread x) as TX by (destruct x as [[cs pc|k j pc] st]; [exact I|]; destruct (WZ _ Hx) as (_ & Z); [intros []|lia]).
    pose proof (BL x Hx TX) as BX; pose proof BX as BX2; destruct BX2; unfold hL in P; cbn in P; try lia.
    - destruct (F6 H) as (y & r & Hy & SY & _); split; [exists y, r; split; [exact Hy|rewrite SY; reflexivity]|exists (mkAct (BThread cs S2) []), cs; split; [exact Hx|reflexivity]].
    - destruct (F6 H) as (y & r & Hy & SY & _); exfalso.
      assert (started (sh s) = false) as SF by (apply (HB3 y Hy); left; exists r; rewrite SY; left; reflexivity).
      destruct I1 as (I1 & _); destruct (I1 SF) as (_ & K); destruct (K _ Hx) as (K1 & _); apply K1; exact I.
    - exfalso; eapply F2; [exact Hx|eexists; reflexivity|exact BX].
    - exfalso; eapply F3; [exact Hx|reflexivity|exact BX]. }
  destruct (slock (sh s)) eqn:SL; [left; apply F7; reflexivity|].
  assert (elock (sh s) = false) as EL by (destruct (elock (sh s)); [destruct (F6 eq_refl) as (x & r & _ & _ & Z); discriminate Z|reflexivity]).
  right; intros x Hx TX; pose proof (BL x Hx TX) as BX; pose proof BX as BX2; destruct BX2; try congruence.
  - left; exact I.
  - right; exists k, r, e; split; [reflexivity|]; split; [assumption|]; split; [assumption|]; split; [assumption|].
    destruct I4 as (I4 & _); pose proof (I4 k e 0 H (F0 k e H H0 (RQ e H1))) as SB; destruct (I3 k SB) as (_ & K).
    assert (cur (sh s) <> Some k) as C by (intros C; destruct (K C) as (_ & [L|(z & Hz & SZ)]); [congruence|apply (F5 z Hz SZ)]).
    destruct I8 as (I8 & _); destruct (I8 k C e H H0) as (a & b & -> & Hend); apply in_or_app; right; right; exact Hend.
  - exfalso; eapply F4; [exact Hx|left; reflexivity|exact BX].
  - exfalso; eapply F2; [exact Hx|eexists; reflexivity|exact BX].
  - exfalso; eapply F3; [exact Hx|reflexivity|exact BX].
Qed.

(** *** From every state the work can be brought to an end *)
Definition at_rest (s : state) : Prop :=
  forallb (settled (sh s)) (actors s) = true /\ (embrace s \/ forall x, In x (actors s) -> is_thread x -> finished x \/ exists k, late s k x).
Lemma progress : forall progs p q, never is_started progs -> never is_hook progs -> forall n s, tot th (actors s) <= n -> reachable quiet progs p q s ->
  exists ms, at_rest (run quiet ms s).
Proof.
  intros progs p q NS NH; induction n as [n IH] using lt_wf_ind; intros s L R.
  destruct (settle progs p q _ s (Nat.le_refl _) R) as (ms & M1 & M2); set (s1 := run quiet ms s) in *.
  assert (reachable quiet progs p q s1) as R1 by (apply reach_more; exact R).
  assert ((exists ms', tot th (actors (run quiet ms' s1)) < tot th (actors s1)) -> exists ms', at_rest (run quiet ms' s)) as Again.
  { intros (ms' & D); destruct (IH (tot th (actors (run quiet ms' s1))) ltac:(lia) (run quiet ms' s1) (Nat.le_refl _)) as (ms2 & K); [apply reach_more; exact R1|].
    exists (ms ++ ms' ++ ms2); rewrite !run_app; exact K. }
  destruct (forallb (fun x => match abase x with BThread _ _ => match lstep quiet (is_exited (actors s1)) (length (actors s1)) x (sh s1) with None => true | Some _ => false end | _ => true end) (actors s1)) eqn:F.
  - exists ms; fold s1; split; [exact M2|]; apply (stuck progs p q); try assumption; intros x Hx TX.
    rewrite forallb_forall in F; specialize (F x Hx); unfold is_thread in TX; destruct (abase x) as [cs pc|] eqn:AB; [|destruct TX].
    pose proof (Inv_reachable quiet progs p q s1 R1) as (_ & (IE & _) & _); apply In_nth_error in Hx as Hx2; destruct Hx2 as (a & Ha).
    eapply why with (a := a) (n := length (actors s1)); [apply IE; exact Ha|apply (nok_reach progs p q s1 R1 x Hx)|unfold is_thread; rewrite AB; exact I|apply (avoids_reach quiet is_hook progs p q s1 NH R1 x Hx)|apply (avoids_reach quiet is_started progs p q s1 NS R1 x Hx)|].
    destruct (lstep quiet (is_exited (actors s1)) (length (actors s1)) x (sh s1)); [discriminate F|reflexivity].
  - apply Again.
    assert (exists x x' g' new, In x (actors s1) /\ is_thread x /\ lstep quiet (is_exited (actors s1)) (length (actors s1)) x (sh s1) = Some (x', g', new)) as (x & x' & g' & new & Hx & TX & LS).
    { clear - F; assert (forall l, forallb (fun x => match abase x with BThread _ _ => match lstep quiet (is_exited (actors s1)) (length (actors s1)) x (sh s1) with None => true | Some _ => false end | _ => true end) l = false ->
        exists x x' g' new, In x l /\ is_thread x /\ lstep quiet (is_exited (actors s1)) (length (actors s1)) x (sh s1) = Some (x', g', new)) as K; [|apply K; exact F].
      induction l as [|y l IH]; intros Q; [discriminate Q|]; cbn [forallb] in Q; apply andb_false_iff in Q; destruct Q as [Q|Q].
      - destruct (abase y) eqn:AB; [|discriminate Q]; destruct (lstep quiet (is_exited (actors s1)) (length (actors s1)) y (sh s1)) as [[[x' g'] new]|] eqn:LS; [|discriminate Q].
        exists y, x', g', new; split; [left; reflexivity|]; split; [unfold is_thread; rewrite AB; exact I|exact LS].
      - destruct (IH Q) as (x & x' & g' & new & A & B); exists x, x', g', new; split; [right; exact A|exact B]. }
    apply In_nth_error in Hx as Hx2; destruct Hx2 as (a & Ha).
    pose proof (Inv_reachable quiet progs p q s1 R1) as (_ & (IE & IB & _) & _).
    destruct (go _ _ _ _ _ _ Ha LS) as (l1 & l2 & E1 & _ & DM & LM).
    destruct (lm_th _ _ _ _ _ _ _ LM (avoids_reach quiet is_hook progs p q s1 NH R1 x Hx) TX) as [D|(cs & k & i & [(-> & ->)|(-> & ->)])].
    + exists [Go a]; change (run quiet [Go a] s1) with (do_move quiet s1 (Go a)); rewrite DM; cbn [actors]; rewrite E1, !tot_app, !tot_cons, tot_app.
      assert (tot th new = 0); [|lia]; apply tot_zero; intros y Hy; destruct (lm_new _ _ _ _ _ _ _ _ _ LM Hy) as (k & j & ->); reflexivity.
    + destruct (IE a _ Ha) as (_ & _ & OK); cbn in OK; destruct OK as (e & Ee & _); eapply flag_loop; [exact Ha|exact Ee|reflexivity].
    + destruct (IE a _ Ha) as (_ & _ & OK); cbn in OK; destruct OK as (e & Ee & _ & FL); eapply join_loop; [exact Ha|exact Ee| |reflexivity].
      intros j J; destruct (IB k e Ee) as (_ & _ & _ & W); destruct (W j J) as (w & Hw & SW); pose proof (IE _ _ Hw) as OKw.
      rewrite forallb_forall in M2; specialize (M2 w (nth_error_In _ _ Hw)); unfold is_exited; rewrite Hw; destruct w as [[c1 pc1|k1 j1 pc1] st1]; [discriminate SW|].
      cbn in SW; injection SW as -> ->; cbn in M2; destruct pc1; try discriminate M2; [|reflexivity].
      apply andb_prop in M2; destruct M2 as (_ & M2); unfold flag in M2; rewrite Ee, FL in M2 by exact J; discriminate M2.
Qed.
