(** Further invariants of the engine: how many records are in execution; the exit hook and the current instance; the
    current instance and the settings. *)
From Verif Require Import Base Eng_Model Eng_Spec Eng_Moves Eng_Inv Eng_Struct Eng_Trace Eng_Stop Eng_Flush Eng_Hook Eng_Facts.

Lemma window : forall {A} (f : A -> nat) l lo c, (forall a x, nth_error l a = Some x -> f x <= 1 /\ (0 < f x -> lo <= a < lo + c)) -> tot f l <= c.
Proof.
  induction l as [|x l IH]; intros lo c H; [apply Nat.le_0_l|]; rewrite tot_cons; destruct (H 0 x eq_refl) as (H1 & H2).
  destruct (Nat.eq_dec (f x) 0) as [Z|Z].
  - rewrite Z; cbn [Nat.add]; apply (IH (pred lo)); intros a y Hy; destruct (H (S a) y Hy) as (K1 & K2); split; [exact K1|]; intros P; specialize (K2 P); lia.
  - specialize (H2 ltac:(lia)); destruct c as [|c]; [lia|].
    assert (tot f l <= c); [|lia]; apply (IH 0); intros a y Hy; destruct (H (S a) y Hy) as (K1 & K2); split; [exact K1|]; intros P; specialize (K2 P); lia.
Qed.

Section Sets.
  Variable nested : nat -> list nat.
  Notation trans := (trans nested).

  (** *** Records in execution *)
  Definition a_len (k : nat) (x : act) : nat := length (running k (astack x)).
  Definition InvL (s : state) : Prop := forall k, length (starts k (trace (sh s))) = length (dones k (trace (sh s))) + tot (a_len k) (actors s).
  Lemma len_local : forall ex n x g x' g' new, lm nested ex n x g x' g' new -> forall k o,
    length (starts k (trace g)) = length (dones k (trace g)) + a_len k x + o ->
    length (starts k (trace g')) = length (dones k (trace g')) + a_len k x' + tot (a_len k) new + o.
  Proof.
    intros ex n x g x' g' new H k0 o Q; mcases H; rewrite ?workers_zero by reflexivity; proj; rewrite ?tot_nil; rewrite ?store_trace;
      unfold a_len, running in *; cbn [astack flat_map] in *; ev; rewrite ?Nat.eqb_refl in *; cbn [app length] in *; rewrite ?app_length in *; cbn [length] in *; try lia.
    all: repeat match goal with N : ?a <> ?b |- _ => apply Nat.eqb_neq in N; rewrite N in * end; cbn [length] in *; lia.
  Qed.
  Lemma InvL_reach : forall progs p q s, reachable nested progs p q s -> InvL s.
  Proof.
    intros progs p q s; apply reach_inv.
    - intros k; unfold init; cbn [sh actors trace]; rewrite tot_zero; [reflexivity|]; intros x Hx; apply in_map_iff in Hx; destruct Hx as (cs & <- & _); reflexivity.
    - intros s1 s2 _ _ A (l1 & x & l2 & x' & g' & new & E & H & ->) k; cbn [sh actors]; specialize (A k); rewrite E in A.
      rewrite !tot_app, !tot_cons in *; rewrite tot_app.
      rewrite (len_local _ _ _ _ _ _ _ H k (tot (a_len k) l1 + tot (a_len k) l2)); lia.
  Qed.
  Lemma one_run : forall g b k e, nth_error (engs g) k = Some e -> e_multi e = true -> forall st, stack_ok g b st -> length (running k st) <= 1.
  Proof.
    intros g b k e Ee M; induction st as [|f st IH]; intros S; [cbn; lia|]; rewrite running_cons, app_length.
    specialize (IH (stack_pop _ _ _ _ S)); destruct f as [pc r|k0 r rest]; [cbn; lia|]; cbn [running flat_map app]; destruct (Nat.eqb_spec k0 k) as [->|N]; [|cbn; lia].
    cbn in S; destruct S as (e1 & E1 & K & _); rewrite Ee in E1; injection E1 as <-; rewrite M in K; destruct K as (-> & _); cbn; lia.
  Qed.
  Lemma run_bound : forall s k e, Inv s -> nth_error (engs (sh s)) k = Some e -> e_multi e = true -> tot (a_len k) (actors s) <= e_count e.
  Proof.
    intros s k e (_ & (IE & _) & _) Ee M; apply (window _ _ (e_first e)); intros a x Ha; pose proof (IE a x Ha) as Ok; pose proof Ok as (SO & BO); unfold a_len; split.
    - eapply one_run; eassumption.
    - intros P; assert (exists r rest, In (FExec k r rest) (astack x)) as (r & rest & Hf).
      { clear - P; induction (astack x) as [|f st IH]; [cbn in P; lia|]; rewrite running_cons, app_length in P; destruct f as [pc r|k0 r rest].
        - destruct IH as (r1 & rest & K); [cbn in P; lia|]; exists r1, rest; right; exact K.
        - cbn [running flat_map app] in P; destruct (Nat.eqb_spec k0 k) as [->|N]; [exists r, rest; left; reflexivity|].
          destruct IH as (r1 & rest1 & K); [cbn in P; lia|]; exists r1, rest1; right; exact K. }
      pose proof (multi_exec _ _ _ _ _ _ _ Ok Hf Ee M) as W; destruct x as [[cs pc|k0 j pc] st]; [destruct W|]; cbn in W; subst k0.
      destruct BO as (e1 & E1 & _ & -> & J & _); rewrite Ee in E1; injection E1 as <-; lia.
  Qed.

  (** *** The exit hook stops the current instance after blocking *)
  Definition Inv11 (s : state) : Prop :=
    (forall x k, In x (actors s) -> (exists cs, abase x = BThread cs H2) -> cur (sh s) = Some k -> ~ In (EvStopBegin k) (trace (sh s))) /\
    (forall t1 t2 k, trace (sh s) = t1 ++ EvHookBlock :: t2 -> cur (sh s) = Some k -> ~ In (EvStopBegin k) t1).
  Lemma lm_h2 : forall ex n x g x' g' new, lm nested ex n x g x' g' new ->
    (forall cs, abase x' = BThread cs H2 -> (exists cs0, abase x = BThread cs0 H2 /\ astack x <> []) \/ (elock g = false /\ trace g' = trace g ++ [EvHookLock])) /\
    exists es, trace g' = trace g ++ es /\ (In EvHookBlock es -> es = [EvHookBlock] /\ exists cs, abase x = BThread cs H2).
  Proof.
    intros ex n x g x' g' new H; split.
    - intros cs0 Q; mcases H; cbn [abase astack] in *; try discriminate Q; try (left; exists cs0; split; [exact Q|discriminate]); right; auto.
    - mcases H; proj; rewrite ?store_trace;
      try (exists []; rewrite app_nil_r; split; [reflexivity|intros []]; fail);
      (eexists; split; [reflexivity|]; intros Hk; cbn [In] in Hk; try (intuition discriminate)); split; [reflexivity|eauto].
  Qed.
  Lemma Inv11_reach : forall progs p q s, reachable nested progs p q s -> Inv11 s.
  Proof.
    intros progs p q s; apply reach_inv.
    - split; [intros x k Hx; apply in_map_iff in Hx; destruct Hx as (cs & <- & _); intros (cs0 & Q); discriminate Q|]; intros t1 t2 k Q; destruct t1; discriminate Q.
    - intros s1 s2 I1 _ (A & B) (l1 & x & l2 & x' & g' & new & E & H & ->); unfold Inv11; cbn [actors sh].
      pose proof I1 as (IA & (IE & _ & IC) & _ & _ & _ & I3 & _ & _ & _ & _ & _ & I9).
      assert (In x (actors s1)) as Ix by (rewrite E; apply in_mid).
      assert (actor_ok (sh s1) (length l1) x) as Ax by (apply IE; rewrite E, nth_error_app2, Nat.sub_diag by lia; reflexivity).
      destruct (lm_h2 _ _ _ _ _ _ _ H) as (HA & es & TR & HB).
      destruct (lm_es _ _ _ _ _ _ _ _ H) as (es' & TR' & TB & _); assert (es' = es) as -> by (rewrite TR in TR'; apply app_inv_head in TR'; auto); clear TR'.
      assert (leaked (sh s1) = true -> cur g' = cur (sh s1)) as CurSame.
      { intros L; destruct (lm_cur_hE _ _ _ _ _ _ _ _ H) as [Q|[Q _]]; [exact Q|]; pose proof (leaked_free s1 x IA L Ix); lia. }
      split.
      + intros y k Hy (cs & Q) C; apply in_cases in Hy; destruct Hy as [->|[Hy|Hy]].
        * destruct (HA cs Q) as [(cs0 & Q1 & Q2)|(EL & T)].
          { exfalso; destruct x as [b st]; cbn in *; subst b; destruct st as [|f st]; [congruence|].
            destruct (frame_base _ _ _ _ _ Ax) as [(c1 & X)|(k1 & j1 & X)]; discriminate X. }
          rewrite T; intros Hin; apply in_app_or in Hin; destruct Hin as [Hin|[Hin|[]]]; [|discriminate Hin].
          destruct (lm_cur_hE _ _ _ _ _ _ _ _ H) as [C2|[C2 _]].
          -- rewrite C2 in C; destruct (stop_locked s1 k IA I3 Hin C) as (_ & K); congruence.
          -- destruct IA as (IA & _); rewrite E, tot_app, tot_cons, EL in IA; cbn [b2n] in IA; lia.
        * assert (In y (actors s1)) as Hy1 by (rewrite E; apply in_old; exact Hy).
          assert (hH y = 1) as HY by (unfold hH; rewrite Q; reflexivity).
          assert (leaked (sh s1) = true) as L.
          { destruct IA as (_ & _ & IH); pose proof (tot_le hH _ _ Hy1); destruct (leaked (sh s1)); [reflexivity|cbn [b2n] in IH; lia]. }
          rewrite (CurSame L) in C; rewrite TR; intros Hin; apply in_app_or in Hin; destruct Hin as [Hin|Hin]; [eapply (A y k); eauto|].
          destruct (TB k Hin) as (_ & S & _); destruct (uniq_other s1 l1 x l2 y IA E Hy) as (U1 & U2); [lia|].
          pose proof (blocker_h _ (stop_blocker _ _ S)); lia.
        * destruct (lm_new _ _ _ _ _ _ _ _ _ H Hy) as (k0 & j0 & ->); discriminate Q.
      + intros t1 t2 k Q C; rewrite TR in Q; destruct (split_cases _ _ _ _ _ Q) as [(t2' & K & ->)|(a' & -> & K)].
        * assert (leaked (sh s1) = true) as L by (destruct I9 as (J & _); apply J; rewrite K; apply in_mid).
          rewrite (CurSame L) in C; eapply B; eassumption.
        * destruct HB as (T1 & cs & AB); [rewrite K; apply in_mid|]; rewrite T1 in K; apply single_split in K; destruct K as (-> & _); rewrite app_nil_r.
          assert (leaked (sh s1) = true) as L.
          { destruct IA as (_ & _ & IH); pose proof (tot_le hH _ _ Ix); destruct (leaked (sh s1)); [reflexivity|unfold hH in *; rewrite AB in *; cbn [b2n] in IH; lia]. }
          rewrite (CurSame L) in C; apply (A x k Ix); eauto.
  Qed.

  (** *** The current instance follows the settings *)
  Definition fits (g : shared) (e : eng) : Prop := e_count e = psize g /\ e_multi e = negb (Nat.eqb (psize g) 0) /\ (psize g <> 0 -> e_max e = qmax g).
  Definition reloading (x : act) : Prop :=
    match abase x with BThread _ S2 | BThread _ S3 | BThread _ S4 | BThread _ S5 | BThread _ S6 | BThread _ (S7 _) | BThread _ S8 => True | _ => False end.
  Definition InvC (s : state) : Prop := forall k e, cur (sh s) = Some k -> nth_error (engs (sh s)) k = Some e ->
    fits (sh s) e \/ exists x, In x (actors s) /\ reloading x.
  Lemma lm_fits : forall ex n x g x' g' new, lm nested ex n x g x' g' new -> (started g = false -> engs g = []) -> astack x = [] \/ ~ reloading x ->
    cur g = match length (engs g) with 0 => None | S m => Some m end ->
    forall k e', cur g' = Some k -> nth_error (engs g') k = Some e' ->
    fits g' e' \/ reloading x' \/ (~ reloading x /\ exists e, cur g = Some k /\ nth_error (engs g) k = Some e /\ (fits g e -> fits g' e')).
  Proof.
    intros ex n x g x' g' new H ST AS CU k1 e1 C E.
    assert (forall m, engs m = engs g -> cur m = cur g -> psize m = psize g -> qmax m = qmax g -> forall k e', cur m = Some k -> nth_error (engs m) k = Some e' ->
      ~ reloading x -> ~ reloading x /\ exists e, cur g = Some k /\ nth_error (engs g) k = Some e /\ (fits g e -> fits m e')) as Same.
    { intros m M1 M2 M3 M4 k e' Q1 Q2 NR; split; [exact NR|]; exists e'; rewrite <- M1, <- M2; repeat (split; [assumption|]); unfold fits; rewrite M3, M4; auto. }
    assert (forall (b : base) (f : frame) l, astack (mkAct b (f :: l)) = [] -> False) as NoSt by (intros b0 f0 l0 Q; discriminate Q).
    mcases H; try (right; left; exact I);
      try (right; right; eapply Same; try exact C; try exact E; try reflexivity; [first [intros []; fail|destruct AS as [AS|AS]; [exfalso; exact (NoSt _ _ _ AS)|exact AS]]]; fail).
    all: try (left; cbn [load cur engs] in C, E; injection C as <-; rewrite nth_error_app2, Nat.sub_diag in E by lia; injection E as <-; 
      unfold fits, new_eng; cbn [load psize qmax e_count e_multi e_max]; split; [reflexivity|]; split; [reflexivity|]; intros N; destruct (Nat.eqb_spec (psize g) 0); [contradiction|reflexivity]).
    all: try (exfalso; proj; rewrite ST in E by assumption; destruct k1; discriminate E).
    all: right; right; split; [first [intros []; fail|destruct AS as [AS|AS]; [exfalso; exact (NoSt _ _ _ AS)|exact AS]]|]; proj.
    all: try (rewrite nth_error_upd in E; match type of E with (if ?c then _ else _) = _ => destruct c eqn:EQ end;
              [apply Nat.eqb_eq in EQ; subst k1|]; [match goal with N : nth_error (engs ?gg) ?kk = Some ?ee |- _ => rewrite N in E; injection E as <-; exists ee; auto end|exists e1; auto]).
  Qed.

  Lemma InvC_reach : forall progs p q s, reachable nested progs p q s -> InvC s.
  Proof.
    intros progs p q s; apply reach_inv.
    - intros k e Q; discriminate Q.
    - intros s1 s2 I1 _ A (l1 & x & l2 & x' & g' & new & E & H & ->) k e' C E'; cbn [actors sh] in *.
      pose proof I1 as (IA & (IE & _ & IC) & _ & (I1a & _) & _).
      assert (In x (actors s1)) as Ix by (rewrite E; apply in_mid).
      assert (actor_ok (sh s1) (length l1) x) as Ax by (apply IE; rewrite E, nth_error_app2, Nat.sub_diag by lia; reflexivity).
      assert (astack x = [] \/ ~ reloading x) as AS.
      { destruct x as [b [|f st]]; [left; reflexivity|right]; destruct (frame_base _ _ _ _ _ Ax) as [(c1 & ->)|(k1 & j1 & ->)]; intros []. }
      destruct (lm_fits _ _ _ _ _ _ _ H (fun F => proj1 (I1a F)) AS IC k e' C E') as [F|[R|(NR & e & C1 & E1 & F)]]; [left; exact F|right; exists x'; split; [apply in_mid|exact R]|].
      destruct (A k e C1 E1) as [K|(y & Hy & Ry)]; [left; apply F, K|right].
      rewrite E in Hy; apply in_rest in Hy; destruct Hy as [->|Hy]; [contradiction|]; exists y; split; [apply in_new; exact Hy|exact Ry].
  Qed.
End Sets.
