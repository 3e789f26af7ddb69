(** Invariants of the engine: a stop flushes; writes that come later; the exit hook. *)
From Verif Require Import Base Eng_Model Eng_Spec Eng_Moves Eng_Inv Eng_Struct Eng_Trace Eng_Stop.

Lemma pick_mono : forall f a b, length (pick f a) <= length (pick f (a ++ b)).
Proof. intros; rewrite pick_app, app_length; lia. Qed.

(** Where an event splits a longer trace. *)
Lemma split_cases : forall (tr es a b : list event) e, tr ++ es = a ++ e :: b ->
  (exists b', tr = a ++ e :: b' /\ b = b' ++ es) \/ (exists a' , a = tr ++ a' /\ es = a' ++ e :: b).
Proof.
  induction tr as [|x tr IH]; intros es a b e H; [right; exists a; auto|].
  destruct a as [|y a]; cbn in H; injection H as -> H.
  - left; exists tr; auto.
  - destruct (IH es a b e H) as [(b' & -> & ->)|(a' & -> & ->)]; [left; exists b'; auto|right; exists a'; auto].
Qed.
Lemma single_split : forall (a b : list event) e e', [e] = a ++ e' :: b -> a = [] /\ b = [] /\ e' = e.
Proof. intros [|x a] b e e' H; cbn in H; injection H; intros; subst; [auto|]. destruct a; discriminate. Qed.

Section Flush.
  Variable nested : nat -> list nat.
  Notation trans := (trans nested).

  (** *** 5. Joined workers are over *)
  Definition joined (l : list act) (e : eng) (i : nat) : Prop := forall j, j < i -> j < e_count e -> is_exited l (e_first e + j) = true.
  Definition Inv5 (s : state) : Prop :=
    (forall x k i e, In x (actors s) -> stop_of x = Some (PJoin k i) -> nth_error (engs (sh s)) k = Some e -> joined (actors s) e i) /\
    (forall k e, In (EvStopEnd k) (trace (sh s)) -> nth_error (engs (sh s)) k = Some e -> joined (actors s) e (e_count e)) /\
    (forall k, In (EvStopEnd k) (trace (sh s)) -> k < length (engs (sh s))).

  Lemma joined_trans : forall s s' e e' i, trans s s' -> eng_le e e' -> joined (actors s) e i -> joined (actors s') e' i.
  Proof.
    intros s s' e e' i T (_ & _ & L1 & L2 & _) J j; rewrite L1, L2; intros; eapply exited_trans; [exact T|]; apply J; assumption.
  Qed.
  Lemma lm_join : forall ex n x g x' g' new k i, lm nested ex n x g x' g' new -> astack x = [] \/ stop_of x = None -> stop_of x' = Some (PJoin k i) ->
    engs g' = engs g /\ (i = 0 \/ exists i0 e, i = S i0 /\ stop_of x = Some (PJoin k i0) /\ nth_error (engs g) k = Some e /\ ex (e_first e + i0) = true).
  Proof.
    intros ex n x g x' g' new k1 i1 H S0 S; mcases H; try (cbn in S; discriminate S);
      try (destruct S0 as [S0|S0]; [discriminate S0|unfold stop_of in *; cbn [abase] in *; congruence]);
      cbn in S; injection S as <- <-; (split; [reflexivity|]).
    - left; reflexivity.
    - right; exists pi, pe; auto.
    - left; reflexivity.
    - right; exists pi, pe; auto.
  Qed.
  Lemma stop_stack : forall g a x, actor_ok g a x -> astack x = [] \/ stop_of x = None.
  Proof.
    intros g a [b [|f l]] H; [left; reflexivity|right]; destruct (frame_base _ _ _ _ _ H) as [(cs & ->)|(k & j & ->)]; reflexivity.
  Qed.
  Lemma old_eng : forall ex n x g x' g' new, lm nested ex n x g x' g' new -> forall a, actor_ok g a x -> forall k e',
    nth_error (engs g') k = Some e' -> k < length (engs g) -> exists e, nth_error (engs g) k = Some e /\ eng_le e e'.
  Proof.
    intros ex n x g x' g' new H a A k e' E L; destruct (lm_eng _ _ _ _ _ _ _ _ H a A k e' E) as [(e & E1 & E2 & _)|(-> & _)]; [eauto|lia].
  Qed.

  Lemma Inv5_trans : forall s s', InvE s -> Inv5 s -> trans s s' -> Inv5 s'.
  Proof.
    intros s s' (IE & _) (A & B & C) T; pose proof T as (l1 & x & l2 & x' & g' & new & E & H & ES).
    assert (In x (actors s)) as Ix by (rewrite E; apply in_mid).
    assert (actor_ok (sh s) (length l1) x) as Ax by (apply IE; rewrite E, nth_error_app2, Nat.sub_diag by lia; reflexivity).
    assert (forall y p k, In y (actors s) -> stop_of y = Some p -> p_eng p = Some k -> p <> PWait k -> k < length (engs (sh s))) as Bound.
    { intros y p k Hy S P N; apply In_nth_error in Hy; destruct Hy as (a & Ha); destruct (IE a y Ha) as (_ & K).
      destruct y as [[cs pc|] st]; [|discriminate]; unfold stop_of in S; cbn [abase] in *; destruct K as (_ & K).
      destruct pc; try discriminate; injection S as ->; destruct p; try discriminate; injection P as ->; destruct K as (e & K & _); apply nth_error_Some; congruence. }
    destruct (lm_es _ _ _ _ _ _ _ _ H) as (es & TR & _ & TE).
    assert (sh s' = g') as SH by (rewrite ES; reflexivity).
    assert (actors s' = l1 ++ x' :: l2 ++ new) as AC by (rewrite ES; reflexivity).
    assert (forall k, In (EvStopEnd k) (trace g') -> k < length (engs (sh s))) as Old.
    { intros k Hk; rewrite TR in Hk; apply in_app_or in Hk; destruct Hk as [Hk|Hk]; [apply C; exact Hk|].
      destruct (TE k Hk) as (_ & _ & i & e & _ & N & _); apply nth_error_Some; congruence. }
    split; [|split].
    - intros y k i e Hy S Ek; rewrite AC in Hy; rewrite SH in Ek; apply in_cases in Hy; destruct Hy as [->|[Hy|Hy]].
      + destruct (lm_join _ _ _ _ _ _ _ _ _ H (stop_stack _ _ _ Ax) S) as (EG & K); rewrite EG in Ek.
        destruct K as [->|(i0 & e0 & -> & S0 & Ek0 & X)]; [intros j J; lia|].
        rewrite Ek in Ek0; injection Ek0 as <-.
        intros j J1 J2; destruct (Nat.eq_dec j i0) as [->|N].
        * eapply exited_trans; [exact T|exact X].
        * eapply (joined_trans s s' e e); [exact T|apply eng_le_refl|eapply A; eassumption|lia|exact J2].
      + assert (In y (actors s)) as Hy2 by (rewrite E; apply in_old; exact Hy).
        destruct (old_eng _ _ _ _ _ _ _ H _ Ax k e Ek) as (e0 & E0 & LE); [eapply Bound; [exact Hy2|exact S|reflexivity|discriminate]|].
        eapply joined_trans; [exact T|exact LE|]; eapply A; eassumption.
      + destruct (lm_new _ _ _ _ _ _ _ _ _ H Hy) as (k0 & j0 & ->); discriminate S.
    - intros k e Hk Ek; rewrite SH in *; destruct (old_eng _ _ _ _ _ _ _ H _ Ax k e Ek (Old k Hk)) as (e0 & E0 & LE).
      replace (e_count e) with (e_count e0) by (symmetry; apply LE).
      eapply joined_trans; [exact T|exact LE|].
      rewrite TR in Hk; apply in_app_or in Hk; destruct Hk as [Hk|Hk]; [apply (B k); assumption|].
      destruct (TE k Hk) as (_ & _ & i & e1 & S & N & L); rewrite E0 in N; injection N as <-.
      intros j J1 J2; apply (A x k i e0 Ix S E0); [lia|exact J2].
    - intros k Hk; rewrite SH in *; destruct (lm_gle _ _ _ _ _ _ _ _ H) as (_ & GL & _); specialize (Old k Hk); lia.
  Qed.
  Lemma Inv5_init : forall progs p q, Inv5 (init progs p q).
  Proof.
    intros progs p q; split; [|split].
    - intros x k i e Hx S; apply in_map_iff in Hx; destruct Hx as (cs & <- & _); discriminate S.
    - intros k e [].
    - intros k [].
  Qed.

  (** *** 6. What was put before the stop began has been started when the stop is past waiting *)
  Definition Inv6 (s : state) : Prop :=
    (forall x p k t1 t2, In x (actors s) -> stop_of x = Some p -> p_past p = Some k -> trace (sh s) = t1 ++ EvStopBegin k :: t2 ->
       length (puts k t1) <= length (starts k (trace (sh s)))) /\
    (forall k t1 t2, trace (sh s) = t1 ++ EvStopBegin k :: t2 -> In (EvStopEnd k) t2 -> length (puts k t1) <= length (starts k (trace (sh s)))).

  Lemma lm_past : forall ex n x g x' g' new p' k, lm nested ex n x g x' g' new -> astack x = [] \/ stop_of x = None -> stop_of x' = Some p' -> p_past p' = Some k ->
    trace g' = trace g /\ ((exists p, stop_of x = Some p /\ p_past p = Some k) \/ (exists e, nth_error (engs g) k = Some e /\ e_queue e = [])).
  Proof.
    intros ex n x g x' g' new p0 k1 H S0 S P; mcases H; try (cbn in S; discriminate S);
      try (destruct S0 as [S0|S0]; [discriminate S0|unfold stop_of in *; cbn [abase] in *; congruence]);
      cbn in S; injection S as <-; try discriminate P; cbn in P; injection P as <-; (split; [reflexivity|]); eauto.
    all: left; eexists; split; reflexivity.
  Qed.

  Lemma Inv6_trans : forall s s', InvA s -> InvE s -> InvT s -> Inv6 s -> trans s s' -> Inv6 s'.
  Proof.
    intros s s' IA (IE & _) IT (A & B) (l1 & x & l2 & x' & g' & new & E & H & ->); unfold Inv6; cbn [actors sh].
    assert (In x (actors s)) as Ix by (rewrite E; apply in_mid).
    assert (actor_ok (sh s) (length l1) x) as Ax by (apply IE; rewrite E, nth_error_app2, Nat.sub_diag by lia; reflexivity).
    destruct (lm_es _ _ _ _ _ _ _ _ H) as (es & TR & TB & TE).
    assert (forall k, length (starts k (trace (sh s))) <= length (starts k (trace g'))) as Mono by (intros k; rewrite TR; apply pick_mono).
    assert (forall k t1 t2, trace g' = t1 ++ EvStopBegin k :: t2 ->
      (exists t2', trace (sh s) = t1 ++ EvStopBegin k :: t2' /\ t2 = t2' ++ es) \/ (t2 = [] /\ stop_of x = Some P0)) as Split.
    { intros k t1 t2 Q; rewrite TR in Q; destruct (split_cases _ _ _ _ _ Q) as [K|(a' & -> & K)]; [left; exact K|right].
      destruct (TB k) as (T1 & T2 & _); [rewrite K; apply in_mid|]; rewrite T1 in K; apply single_split in K; split; [apply K|exact T2]. }
    split.
    - intros y p k t1 t2 Hy S P Q; apply in_cases in Hy; destruct Hy as [->|[Hy|Hy]].
      + destruct (lm_past _ _ _ _ _ _ _ _ _ H (stop_stack _ _ _ Ax) S P) as (T0 & [(p0 & S0 & P0)|(e & Ee & Qe)]).
        * rewrite T0 in *; eapply A; eassumption.
        * rewrite T0; destruct IT as (_ & _ & _ & _ & F & _); specialize (F k); unfold queue_of in F; rewrite Ee, Qe, app_nil_r in F.
          rewrite <- F, <- T0, Q; apply pick_mono.
      + destruct (Split k t1 t2 Q) as [(t2' & Q2 & _)|(_ & S0)].
        * pose proof (A y p k t1 t2' ltac:(rewrite E; apply in_old; exact Hy) S P Q2); specialize (Mono k); lia.
        * exfalso; destruct (uniq_other s l1 x l2 y IA E Hy (blocker_h _ (stop_blocker _ _ S))) as (U1 & U2).
          pose proof (blocker_h _ (stop_blocker _ _ S0)); lia.
      + destruct (lm_new _ _ _ _ _ _ _ _ _ H Hy) as (k0 & j0 & ->); discriminate S.
    - intros k t1 t2 Q I; destruct (Split k t1 t2 Q) as [(t2' & Q2 & ->)|(-> & _)]; [|destruct I].
      specialize (Mono k); apply in_app_or in I; destruct I as [I|I]; [specialize (B k t1 t2' Q2 I); lia|].
      destruct (TE k I) as (_ & _ & i & e & S & _); pose proof (A x _ k t1 t2' Ix S eq_refl Q2); lia.
  Qed.
  Lemma Inv6_init : forall progs p q, Inv6 (init progs p q).
  Proof.
    intros progs p q; split.
    - intros x p0 k t1 t2 Hx S; apply in_map_iff in Hx; destruct Hx as (cs & <- & _); discriminate S.
    - intros k t1 t2 Q; destruct t1; discriminate Q.
  Qed.

  (** *** 7. Writes called after a stop began do not reach the stopped instance *)
  Definition early_pc (pc : wpc) : Prop := pc = W0 \/ pc = B1 \/ pc = W7 \/ pc = B4.
  Definition away (g : shared) (k : nat) (pc : wpc) : Prop := early_pc pc \/ (cur g <> Some k /\ pc <> W6 k /\ pc <> B3 k).
  Definition Inv7 (s : state) : Prop := forall k t1 t2 r, trace (sh s) = t1 ++ EvStopBegin k :: t2 -> times r (calls t1) = 0 ->
    times r (puts k (trace (sh s))) = 0 /\ forall x pc, In x (actors s) -> In (FWrite pc r) (astack x) -> away (sh s) k pc.

  Lemma times_puts : forall r k tr, times r (puts k tr) <= times r (all_puts tr).
  Proof.
    intros r k tr; induction tr as [|e tr IH]; [reflexivity|]; unfold puts, all_puts in *; cbn [pick].
    destruct e; try exact IH; destruct (Nat.eqb_spec k0 k); unfold times in *; cbn [count_occ]; destruct (Nat.eq_dec r0 r); lia.
  Qed.
  Lemma frame_pre : forall s x pc r, In x (actors s) -> In (FWrite pc r) (astack x) -> 0 < tot (a_pre r) (actors s) + tot (a_post r) (actors s).
  Proof.
    intros s x pc r Hx Hf; pose proof (tot_le (a_pre r) _ _ Hx); pose proof (tot_le (a_post r) _ _ Hx); unfold a_pre, a_post in *.
    pose proof (tot_le (f_pre r) _ _ Hf); pose proof (tot_le (f_post r) _ _ Hf); cbn [f_pre f_post] in *.
    assert (times r [r] = 1) by (unfold times; cbn; destruct (Nat.eq_dec r r); congruence).
    destruct (w_pre pc); lia.
  Qed.
  (** A record never passed to write is nowhere. *)
  Lemma fresh : forall s r, InvT s -> times r (calls (trace (sh s))) = 0 ->
    times r (all_puts (trace (sh s))) = 0 /\ forall x pc, In x (actors s) -> ~ In (FWrite pc r) (astack x).
  Proof.
    intros s r (A & B & _) Z; specialize (A r); specialize (B r); split; [lia|]; intros x pc Hx Hf; pose proof (frame_pre s x pc r Hx Hf); lia.
  Qed.

  (** The records a move concerns. *)
  Lemma lm_frames : forall ex n x g x' g' new, lm nested ex n x g x' g' new -> forall pc r, In (FWrite pc r) (astack x') ->
    (In (FWrite pc r) (astack x)) \/
    (exists pc0, In (FWrite pc0 r) (astack x) /\
       match pc0 with
       | W0 => pc = match wmode g with MFirst => W1 | MNew => W5 | MBlocked => B1 end
       | B1 => pc = B2 /\ elock g = false
       | W7 | B4 => False
       | W5 => exists k, cur g = Some k /\ pc = W6 k
       | B2 => exists k, cur g = Some k /\ pc = B3 k
       | _ => (forall k, pc <> W6 k) /\ (forall k, pc <> B3 k)
       end) \/ (pc = W0).
  Proof.
    intros ex n x g x' g' new H pc0 r0 Q; mcases H; cbn [astack In] in Q |- *; try (destruct Q; fail); auto 6;
      try (destruct Q as [Q|[Q|Q]]; try discriminate Q; [injection Q as <- <-|auto]);
      try (destruct Q as [Q|Q]; [injection Q as <- <-|auto]);
      try (right; left; eexists; split; [left; reflexivity|]; cbn; first [assumption|split; [reflexivity|assumption]|split; intros; discriminate|eexists; split; [eassumption|reflexivity]]; fail); auto.
    destruct Q as [Q|[]]; discriminate.
  Qed.

  (** A stop of the current instance that has begun keeps the engine lock. *)
  Lemma stop_locked : forall s k, InvA s -> Inv3 s -> In (EvStopBegin k) (trace (sh s)) -> cur (sh s) = Some k -> wmode (sh s) = MBlocked /\ elock (sh s) = true.
  Proof.
    intros s k (A & _) I3 B C; destruct (I3 k B) as (_ & K); destruct (K C) as (M & L); split; [exact M|].
    destruct (elock (sh s)); [reflexivity|exfalso]; destruct L as [L|(x & Hx & Sx)]; [rewrite L in A; cbn in A; lia|].
    pose proof (tot_le hE _ _ Hx); pose proof (stopper_h _ Sx); cbn in A; lia.
  Qed.

  Lemma lm_putfrom : forall ex n x g x' g' new, lm nested ex n x g x' g' new -> forall k r,
    times r (puts k (trace g')) = times r (puts k (trace g)) \/ In (FWrite (W6 k) r) (astack x) \/ In (FWrite (B3 k) r) (astack x).
  Proof.
    intros ex n x g x' g' new H k1 r1; mcases H; proj; rewrite ?store_trace; ev; try (left; lia).
    all: match goal with |- context [times ?a [?b]] => destruct (Nat.eq_dec b a) as [->|N]; [right; cbn; auto|left; assert (times a [b] = 0) as ->; [|lia]] end;
      unfold times; cbn; match goal with |- (if ?c then _ else _) = _ => destruct c end; congruence.
  Qed.

  Lemma lm_away : forall s l1 x l2 x' g' new k, InvA s -> Inv3 s -> actors s = l1 ++ x :: l2 ->
    lm nested (is_exited (actors s)) (length (actors s)) x (sh s) x' g' new ->
    In (EvStopBegin k) (trace (sh s)) -> forall r, (forall y pc, In y (actors s) -> In (FWrite pc r) (astack y) -> away (sh s) k pc) ->
    forall y pc, In y (l1 ++ x' :: l2 ++ new) -> In (FWrite pc r) (astack y) -> away g' k pc.
  Proof.
    intros s l1 x l2 x' g' new k IA I3 E H B r W y pc Hy Hf.
    assert (In x (actors s)) as Ix by (rewrite E; apply in_mid).
    destruct (I3 k B) as (L & _).
    assert (cur (sh s) <> Some k -> cur g' <> Some k) as Cur.
    { intros N; destruct (lm_cur_hE _ _ _ _ _ _ _ _ H) as [->|[_ ->]]; [exact N|]; intros Q; injection Q; lia. }
    assert (away (sh s) k pc -> away g' k pc) as Keep.
    { intros [K|(K1 & K2 & K3)]; [left; exact K|right; auto]. }
    apply in_cases in Hy; destruct Hy as [->|[Hy|Hy]].
    - destruct (lm_frames _ _ _ _ _ _ _ H pc r Hf) as [Q|[(pc0 & Q & R)|Q]]; [apply Keep; eapply W; eassumption| |left; left; exact Q].
      pose proof (W x pc0 Ix Q) as Wx; assert ({cur (sh s) = Some k} + {cur (sh s) <> Some k}) as [C|C] by (decide equality; apply Nat.eq_dec).
      + destruct (stop_locked s k IA I3 B C) as (M & EL).
        destruct Wx as [[->|[->|[->| ->]]]|(K1 & _)]; [| | | |congruence].
        * rewrite M in R; subst pc; left; right; left; reflexivity.
        * destruct R; congruence.
        * destruct R.
        * destruct R.
      + right; split; [apply Cur; exact C|].
        destruct pc0; try (destruct R as (? & ?); split; auto; fail); try (destruct R; fail).
        * destruct (wmode (sh s)); subst pc; split; discriminate.
        * destruct R as (k0 & K0 & ->); split; [congruence|discriminate].
        * destruct R as (-> & _); split; discriminate.
        * destruct R as (k0 & K0 & ->); split; [discriminate|congruence].
    - apply Keep; eapply W; [rewrite E; apply in_old; exact Hy|exact Hf].
    - destruct (lm_new _ _ _ _ _ _ _ _ _ H Hy) as (k0 & j0 & ->); destruct Hf.
  Qed.

  Lemma Inv7_trans : forall s s', InvA s -> InvT s -> InvT s' -> Inv3 s -> Inv7 s -> trans s s' -> Inv7 s'.
  Proof.
    intros s s' IA IT IT' I3 A T; pose proof T as (l1 & x & l2 & x' & g' & new & E & H & ->); unfold Inv7; cbn [actors sh].
    assert (In x (actors s)) as Ix by (rewrite E; apply in_mid).
    destruct (lm_es _ _ _ _ _ _ _ _ H) as (es & TR & TB & _).
    intros k t1 t2 r Q Z; pose proof Q as Q0; rewrite TR in Q; destruct (split_cases _ _ _ _ _ Q) as [(t2' & K & ->)|(a' & -> & K)].
    - destruct (A k t1 t2' r K Z) as (P & W).
      assert (In (EvStopBegin k) (trace (sh s))) as B by (rewrite K; apply in_mid).
      split.
      + destruct (lm_putfrom _ _ _ _ _ _ _ H k r) as [->|[F|F]]; [exact P| |].
        * destruct (W x _ Ix F) as [[?|[?|[?|?]]]|(_ & N & _)]; [discriminate..|congruence].
        * destruct (W x _ Ix F) as [[?|[?|[?|?]]]|(_ & _ & N)]; [discriminate..|congruence].
      + apply (lm_away s l1 x l2 x' g' new k IA I3 E H B r W).
    - destruct (TB k) as (T1 & _); [rewrite K; apply in_mid|]; rewrite T1 in K; apply single_split in K; destruct K as (-> & -> & _).
      rewrite app_nil_r in *.
      assert (times r (calls (trace g')) = 0) as Z2 by (rewrite Q0; unfold calls in *; rewrite pick_app; cbn [pick]; rewrite app_nil_r; exact Z).
      destruct (fresh _ r IT' Z2) as (F1 & F2); cbn [sh actors] in *; split; [pose proof (times_puts r k (trace g')); lia|].
      intros y pc Hy Hf; exfalso; eapply F2; eassumption.
  Qed.
  Lemma Inv7_init : forall progs p q, Inv7 (init progs p q).
  Proof. intros progs p q k t1 t2 r Q; destruct t1; discriminate Q. Qed.
End Flush.
