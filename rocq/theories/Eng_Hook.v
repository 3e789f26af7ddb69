(** Invariants of the engine: replaced instances were stopped; the exit hook; all invariants together. *)
From Verif Require Import Base Eng_Model Eng_Spec Eng_Moves Eng_Inv Eng_Struct Eng_Trace Eng_Stop Eng_Flush.

(** The stop of the current instance has returned. *)
Definition stopped_pc (x : act) : Prop :=
  match abase x with BThread _ (S7 PActive) | BThread _ (S7 PEnd) | BThread _ S8 | BThread _ (H3 PActive) | BThread _ (H3 PEnd) => True | _ => False end.

Section Hook.
  Variable nested : nat -> list nat.
  Notation trans := (trans nested).

  (** *** 8. Every replaced instance was stopped completely *)
  Definition ended_eng (g : shared) (k : nat) : Prop := forall e, nth_error (engs g) k = Some e -> e_multi e = true -> ended (trace g) k.
  Definition Inv8 (s : state) : Prop :=
    (forall k, cur (sh s) <> Some k -> ended_eng (sh s) k) /\
    (forall x k, In x (actors s) -> stopped_pc x -> cur (sh s) = Some k -> ended_eng (sh s) k).

  Lemma stopped_h : forall x, stopped_pc x -> 0 < hE x + hH x.
  Proof. intros x H; apply blocker_h; destruct x as [[cs pc|] st]; [destruct pc as [| | | | | | | |[]| | | | | | | | |[]]|]; exact H || exact I. Qed.
  Lemma lm_stopped : forall ex n x g x' g' new, lm nested ex n x g x' g' new -> astack x = [] \/ stop_of x = None -> ~ stopper x \/ astack x = [] -> stopped_pc x' ->
    cur g' = cur g /\ engs g' = engs g /\
    (stopped_pc x \/ (exists k, trace g' = trace g ++ [EvStopEnd k] /\ exists i, stop_of x = Some (PJoin k i)) \/
     (cur g = None \/ exists k, cur g = Some k /\ forall e, nth_error (engs g) k = Some e -> e_multi e = false)).
  Proof.
    intros ex n x g x' g' new H S0 S1 S; mcases H; unfold stopped_pc, stop_of, stopper in *; cbn [abase astack] in *; try (destruct S; fail);
      try (exfalso; destruct b as [cs0 pc0|]; [|destruct S]; destruct S0 as [S0|S0]; [discriminate S0|]; destruct S1 as [S1|S1]; [|discriminate S1];
           destruct pc0 as [| | | | | | | |[]| | | | | | | | |[]]; try discriminate S0; try (destruct S; fail); apply S1; exact I);
      proj; (split; [reflexivity|]; split; [reflexivity|]); auto.
    all: right; left; exists pk; split; [reflexivity|]; exists pi; reflexivity.
  Qed.

  Lemma ended_eng_keep : forall ex n x g x' g' new, lm nested ex n x g x' g' new -> forall a, actor_ok g a x -> forall k, k < length (engs g) -> ended_eng g k -> ended_eng g' k.
  Proof.
    intros ex n x g x' g' new H a A k L K e' E' M; destruct (old_eng _ _ _ _ _ _ _ _ H a A k e' E' L) as (e & E & LE).
    destruct (lm_ext _ _ _ _ _ _ _ _ H) as (es & ->); apply ended_app; apply (K e E); destruct LE as (LM & _); congruence.
  Qed.

  Lemma Inv8_trans : forall s s', InvA s -> InvE s -> Inv1 s -> Inv2 s -> Inv8 s -> trans s s' -> Inv8 s'.
  Proof.
    intros s s' IA (IE & IB & IC) (_ & I1) I2 (A & B) (l1 & x & l2 & x' & g' & new & E & H & ->); unfold Inv8; cbn [actors sh].
    assert (In x (actors s)) as Ix by (rewrite E; apply in_mid).
    assert (actor_ok (sh s) (length l1) x) as Ax by (apply IE; rewrite E, nth_error_app2, Nat.sub_diag by lia; reflexivity).
    assert (forall k, cur (sh s) = Some k -> k < length (engs (sh s))) as CurLt by (intros k; rewrite IC; destruct (length (engs (sh s))); intros Q; [discriminate|injection Q as <-; lia]).
    assert (forall k, length (engs (sh s)) <= k -> cur g' <> Some k -> ended_eng g' k) as New.
    { intros k L C e' E' M; destruct (lm_eng _ _ _ _ _ _ _ _ H _ Ax k e' E') as [(e & E1 & _)|(-> & _ & N)].
      - exfalso; assert (k < length (engs (sh s))) by (apply nth_error_Some; congruence); lia.
      - exfalso; apply C; destruct (lm_cur_hE _ _ _ _ _ _ _ _ H) as [C2|[_ C2]]; [|exact C2].
        exfalso; pose proof (lm_cur _ _ _ _ _ _ _ _ H IC) as C3; rewrite C2, IC in C3.
        assert (length (engs (sh s)) < length (engs g')) by (apply nth_error_Some; congruence).
        destruct (length (engs (sh s))), (length (engs g')); try discriminate; try lia; injection C3; lia. }
    split.
    - intros k C; destruct (le_lt_dec (length (engs (sh s))) k) as [L|L]; [apply New; assumption|].
      apply (ended_eng_keep _ _ _ _ _ _ _ H _ Ax k L).
      assert ({cur (sh s) = Some k} + {cur (sh s) <> Some k}) as [D|D] by (decide equality; apply Nat.eq_dec); [|apply A; exact D].
      (* k has just been replaced *)
      destruct (lm_cur_hE _ _ _ _ _ _ _ _ H) as [C2|[_ C2]]; [congruence|].
      assert (at_pc x W3c \/ stopped_pc x) as [K|K].
      { pose proof (lm_cur _ _ _ _ _ _ _ _ H IC) as C3; rewrite C2 in C3.
        assert (length (engs g') = S (length (engs (sh s)))) as LL by (destruct (length (engs g')); [discriminate|injection C3 as ->; reflexivity]).
        clear - H LL; mcases H; proj; rewrite ?store_engs, ?upd_length in LL; try lia; [left; eexists; left; reflexivity|right; exact I]. }
      + rewrite (I1 x Ix K) in L; cbn in L; lia.
      + apply (B x k Ix K D).
    - intros y k Hy S C; apply in_cases in Hy; destruct Hy as [->|[Hy|Hy]].
      + destruct (lm_stopped _ _ _ _ _ _ _ H (stop_stack _ _ _ Ax)) as (C2 & EG & K); [| exact S |].
        { destruct (astack x) eqn:AS; [right; reflexivity|left]; intros ST; rewrite (stopper_stack _ _ _ Ax ST) in AS; discriminate. }
        rewrite C2 in C; destruct K as [K|[(k2 & T & i & S2)|K]].
        * apply (ended_eng_keep _ _ _ _ _ _ _ H _ Ax); [apply CurLt; exact C|apply (B x); assumption].
        * destruct (I2 x Ix) as (_ & Q2 & _); destruct (Q2 _ k2 S2 eq_refl) as (C3 & IB2); assert (k2 = k) as -> by congruence.
          intros e' E' M; rewrite T; apply in_split in IB2; destruct IB2 as (a & b & IB2); exists a, (b ++ [EvStopEnd k]).
          rewrite IB2, <- app_assoc; split; [reflexivity|]; apply in_or_app; right; left; reflexivity.
        * destruct K as [K|(k2 & K & M)]; [congruence|]; assert (k2 = k) as -> by congruence; intros e' E' M'; rewrite EG in E'; specialize (M e' E'); congruence.
      + destruct (uniq_other s l1 x l2 y IA E Hy (stopped_h _ S)) as (U & _).
        destruct (lm_cur_hE _ _ _ _ _ _ _ _ H) as [C2|[C2 _]]; [|lia]; rewrite C2 in C.
        apply (ended_eng_keep _ _ _ _ _ _ _ H _ Ax); [apply CurLt; exact C|apply (B y); [rewrite E; apply in_old; exact Hy|exact S|exact C]].
      + destruct (lm_new _ _ _ _ _ _ _ _ _ H Hy) as (k0 & j0 & ->); destruct S.
  Qed.
  Lemma Inv8_init : forall progs p q, Inv8 (init progs p q).
  Proof.
    intros progs p q; split.
    - intros k _ e E; destruct k; discriminate E.
    - intros x k Hx S; apply in_map_iff in Hx; destruct Hx as (cs & <- & _); destruct S.
  Qed.

  (** *** 9. The exit hook *)
  Definition waits (pc : wpc) : Prop := pc = W0 \/ pc = B1.
  Definition Inv9 (s : state) : Prop :=
    (In EvHookBlock (trace (sh s)) -> leaked (sh s) = true /\ wmode (sh s) = MBlocked) /\
    (In EvHookEnd (trace (sh s)) -> In EvHookBlock (trace (sh s)) /\ forall k, ended_eng (sh s) k) /\
    (forall t1 t2 r, trace (sh s) = t1 ++ EvHookBlock :: t2 -> times r (calls t1) = 0 ->
       times r (all_puts (trace (sh s))) = 0 /\ forall x pc, In x (actors s) -> In (FWrite pc r) (astack x) -> waits pc) /\
    (In EvHookLock (trace (sh s)) -> leaked (sh s) = true).

  Lemma lm_hook : forall ex n x g x' g' new, lm nested ex n x g x' g' new -> exists es, trace g' = trace g ++ es /\
    (In EvHookBlock es -> es = [EvHookBlock] /\ hH x = 1 /\ wmode g' = MBlocked /\ leaked g' = leaked g) /\
    (In EvHookEnd es -> es = [EvHookEnd] /\ (exists cs, abase x = BThread cs (H3 PEnd)) /\ engs g' = engs g) /\
    (In EvHookLock es -> leaked g' = true).
  Proof.
    intros ex n x g x' g' new H; mcases H; proj; rewrite ?store_trace;
      try (exists []; rewrite app_nil_r; split; [reflexivity|]; split; [|split]; intros []; fail);
      (eexists; split; [reflexivity|]; split; [|split]; intros Hk; cbn [In] in Hk; try (intuition discriminate)).
    - split; [reflexivity|]; split; [eauto|reflexivity].
  Qed.
  Lemma lm_putany : forall ex n x g x' g' new, lm nested ex n x g x' g' new -> forall r,
    times r (all_puts (trace g')) = times r (all_puts (trace g)) \/ exists k, In (FWrite (W6 k) r) (astack x) \/ In (FWrite (B3 k) r) (astack x).
  Proof.
    intros ex n x g x' g' new H r1; mcases H; proj; rewrite ?store_trace; ev; try (left; lia).
    all: match goal with |- context [times ?a [?b]] => destruct (Nat.eq_dec b a) as [->|N]; [right; exists k; cbn; auto|left; assert (times a [b] = 0) as ->; [|lia]] end;
      unfold times; cbn; match goal with |- (if ?c then _ else _) = _ => destruct c end; congruence.
  Qed.

  Lemma Inv9_trans : forall s s', InvA s -> InvE s -> InvT s' -> Inv2 s -> Inv8 s -> Inv9 s -> trans s s' -> Inv9 s'.
  Proof.
    intros s s' IA (IE & _ & IC) IT' I2 (I8a & I8b) (A & B & C & D) T; pose proof T as (l1 & x & l2 & x' & g' & new & E & H & ->); unfold Inv9; cbn [actors sh].
    assert (In x (actors s)) as Ix by (rewrite E; apply in_mid).
    assert (actor_ok (sh s) (length l1) x) as Ax by (apply IE; rewrite E, nth_error_app2, Nat.sub_diag by lia; reflexivity).
    destruct (lm_hook _ _ _ _ _ _ _ H) as (es & TR & TB & TE & TL).
    destruct (lm_gle _ _ _ _ _ _ _ _ H) as (_ & _ & _ & LK & _).
    assert (hH x = 1 -> leaked (sh s) = true) as HL.
    { intros Q; destruct IA as (_ & _ & IH); rewrite E, tot_app, tot_cons, Q in IH; destruct (leaked (sh s)); [reflexivity|cbn [b2n] in IH; lia]. }
    assert (leaked (sh s) = true -> cur g' = cur (sh s)) as CurSame.
    { intros L; destruct (lm_cur_hE _ _ _ _ _ _ _ _ H) as [Q|[Q _]]; [exact Q|]; pose proof (leaked_free s x IA L Ix); lia. }
    assert (leaked (sh s) = true -> forall k, ended_eng (sh s) k -> ended_eng g' k) as Keep.
    { intros L k K e' E' M; destruct (lm_eng _ _ _ _ _ _ _ _ H _ Ax k e' E') as [(e & E1 & LE & _)|(-> & _)].
      - rewrite TR; apply ended_app, (K e E1); destruct LE as (LM & _); congruence.
      - exfalso; pose proof (lm_cur _ _ _ _ _ _ _ _ H IC) as C3; rewrite (CurSame L), IC in C3.
        assert (length (engs (sh s)) < length (engs g')) by (apply nth_error_Some; congruence).
        destruct (length (engs (sh s))), (length (engs g')); try discriminate; try lia; injection C3; lia. }
    split; [|split; [|split]].
    - rewrite TR; intros Hk; apply in_app_or in Hk; destruct Hk as [Hk|Hk].
      + destruct (A Hk) as (L & M); split; [auto|]; destruct (lm_mode_hE _ _ _ _ _ _ _ _ H) as [Q|[Q|Q]]; [congruence|exact Q|].
        pose proof (leaked_free s x IA L Ix); lia.
      + destruct (TB Hk) as (_ & Q & M & L); split; [rewrite L; auto|exact M].
    - rewrite TR; intros Hk; apply in_app_or in Hk; destruct Hk as [Hk|Hk].
      + destruct (B Hk) as (B1 & B2); split; [apply in_or_app; auto|]; intros k; apply Keep; [apply A; exact B1|apply B2].
      + destruct (TE Hk) as (_ & (cs & AB) & EG); destruct (I2 x Ix) as (_ & _ & _ & Q); rewrite AB in Q; split; [apply in_or_app; auto|].
        intros k; apply Keep; [apply HL; unfold hH; rewrite AB; reflexivity|].
        assert ({cur (sh s) = Some k} + {cur (sh s) <> Some k}) as [F|F] by (decide equality; apply Nat.eq_dec); [|apply I8a; exact F].
        apply (I8b x k Ix); [unfold stopped_pc; rewrite AB; exact I|exact F].
    - intros t1 t2 r Q Z; pose proof Q as Q0; rewrite TR in Q; destruct (split_cases _ _ _ _ _ Q) as [(t2' & K & ->)|(a' & -> & K)].
      + destruct (C t1 t2' r K Z) as (P & W).
        assert (In EvHookBlock (trace (sh s))) as HB by (rewrite K; apply in_mid).
        destruct (A HB) as (L & M).
        split.
        * destruct (lm_putany _ _ _ _ _ _ _ H r) as [->|(k & [F|F])]; [exact P| |]; destruct (W x _ Ix F) as [?|?]; discriminate.
        * intros y pc Hy Hf; apply in_cases in Hy; destruct Hy as [->|[Hy|Hy]].
          -- destruct (lm_frames _ _ _ _ _ _ _ _ H pc r Hf) as [F|[(pc0 & F & R)|F]]; [eapply W; eassumption| |left; exact F].
             destruct (W x pc0 Ix F) as [->| ->]; [rewrite M in R; right; exact R|].
             destruct R as (_ & R); destruct IA as (IA & _); rewrite L, R in IA; cbn [b2n] in IA; lia.
          -- eapply W; [rewrite E; apply in_old; exact Hy|exact Hf].
          -- destruct (lm_new _ _ _ _ _ _ _ _ _ H Hy) as (k0 & j0 & ->); destruct Hf.
      + destruct TB as (T1 & _); [rewrite K; apply in_mid|]; rewrite T1 in K; apply single_split in K; destruct K as (-> & -> & _).
        rewrite app_nil_r in *.
        assert (times r (calls (trace g')) = 0) as Z2 by (rewrite Q0; unfold calls in *; rewrite pick_app; cbn [pick]; rewrite app_nil_r; exact Z).
        destruct (fresh _ r IT' Z2) as (F1 & F2); cbn [sh actors] in *; split; [exact F1|].
        intros y pc Hy Hf; exfalso; eapply F2; eassumption.
    - rewrite TR; intros Hk; apply in_app_or in Hk; destruct Hk as [Hk|Hk]; [apply LK, D; exact Hk|apply TL; exact Hk].
  Qed.
  Lemma Inv9_init : forall progs p q, Inv9 (init progs p q).
  Proof.
    intros progs p q; split; [intros []|split; [intros []|split; [|intros []]]].
    intros t1 t2 r Q; destruct t1; discriminate Q.
  Qed.

  (** *** All together *)
  Definition Inv (s : state) : Prop :=
    InvA s /\ InvE s /\ InvT s /\ Inv1 s /\ Inv2 s /\ Inv3 s /\ Inv4 s /\ Inv5 s /\ Inv6 s /\ Inv7 s /\ Inv8 s /\ Inv9 s.
  Lemma Inv_trans : forall s s', Inv s -> trans s s' -> Inv s'.
  Proof.
    intros s s' (A & E & T & I1 & I2 & I3 & I4 & I5 & I6 & I7 & I8 & I9) H.
    assert (InvT s') as T' by (eapply InvT_trans; eassumption).
    split; [eapply InvA_trans; eassumption|]; split; [eapply InvE_trans; eassumption|]; split; [exact T'|].
    split; [eapply Inv1_trans; eassumption|]; split; [eapply Inv2_trans; eassumption|]; split; [eapply (Inv3_trans _ s); eassumption|].
    split; [eapply Inv4_trans; eassumption|]; split; [eapply Inv5_trans; eassumption|]; split; [eapply (Inv6_trans _ s); eassumption|].
    split; [eapply (Inv7_trans _ s); eassumption|]; split; [eapply (Inv8_trans s); eassumption|]; eapply (Inv9_trans s); eassumption.
  Qed.
  Lemma Inv_init : forall progs p q, Inv (init progs p q).
  Proof.
    intros; split; [apply InvA_init|]; split; [apply InvE_init|]; split; [apply InvT_init|]; split; [apply Inv1_init|]; split; [apply Inv2_init|].
    split; [apply Inv3_init|]; split; [apply Inv4_init|]; split; [apply Inv5_init|]; split; [apply Inv6_init|]; split; [apply Inv7_init|].
    split; [apply Inv8_init|apply Inv9_init].
  Qed.
  Lemma Inv_reachable : forall progs p q s, reachable nested progs p q s -> Inv s.
  Proof. intros progs p q s (ms & ->); apply (run_inv nested Inv Inv_trans), Inv_init. Qed.
  Lemma Inv_run : forall ms s, Inv s -> Inv (run nested ms s).
  Proof. intros ms s; apply (run_inv nested Inv Inv_trans). Qed.
End Hook.
