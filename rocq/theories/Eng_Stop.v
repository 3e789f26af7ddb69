(** Invariants of the engine: who may change the instance in use, and what a stop has reached. *)
From Verif Require Import Base Eng_Model Eng_Spec Eng_Moves Eng_Inv Eng_Struct Eng_Trace.

Definition stop_of (x : act) : option spc := match abase x with BThread _ (S7 p) | BThread _ (H3 p) => Some p | _ => None end.
Definition p_eng (p : spc) : option nat := match p with PWait k | PFlag k _ | PJoin k _ => Some k | _ => None end.
Definition p_past (p : spc) : option nat := match p with PFlag k _ | PJoin k _ => Some k | _ => None end.
(** A reload that has called stop and not yet loaded. *)
Definition stopper (x : act) : Prop := match abase x with BThread _ (S7 P0) => False | BThread _ (S7 _) | BThread _ S8 => True | _ => False end.
(** Somewhere between block and unlock, or in the hook after block. *)
Definition blocker (x : act) : Prop := match abase x with BThread _ (S7 _) | BThread _ S8 | BThread _ (H3 _) => True | _ => False end.
(** After the start of the engine. *)
Definition late_pc (x : act) : Prop :=
  match abase x with BThread _ S5 | BThread _ S6 | BThread _ (S7 _) | BThread _ S8 | BThread _ S9 | BThread _ S10
  | BThread _ H1 | BThread _ H2 | BThread _ (H3 _) => True | _ => False end.
Definition at_pc (x : act) (pc : wpc) : Prop := exists r, In (FWrite pc r) (astack x).
(** Instance k has been stopped, completely. *)
Definition ended (tr : list event) (k : nat) : Prop := exists a b, tr = a ++ EvStopBegin k :: b /\ In (EvStopEnd k) b.

Lemma ended_app : forall tr es k, ended tr k -> ended (tr ++ es) k.
Proof. intros tr es k (a & b & -> & H); exists a, (b ++ es); rewrite <- app_assoc; split; [reflexivity|]; apply in_or_app; auto. Qed.

Section Stop.
  Variable nested : nat -> list nat.

  Lemma lm_new : forall ex n x g x' g' new y, lm nested ex n x g x' g' new -> In y new -> exists k j, y = mkAct (BWorker k j KGet) [].
  Proof.
    intros ex n x g x' g' new y H I.
    assert (new = [] \/ new = new_workers g) as [->| ->] by (mcases H; auto); [destruct I|].
    apply in_map_iff in I; destruct I as (j & <- & _); eauto.
  Qed.
  Lemma in_cases : forall {A} (l1 l2 new : list A) x' y, In y (l1 ++ x' :: l2 ++ new) -> y = x' \/ In y (l1 ++ l2) \/ In y new.
  Proof.
    intros A l1 l2 new x' y H; apply in_app_or in H; destruct H as [H|[H|H]]; [right; left; apply in_or_app; auto|auto|].
    apply in_app_or in H; destruct H as [H|H]; [right; left; apply in_or_app; auto|auto].
  Qed.
  Lemma in_mid : forall {A} (l1 l2 : list A) x, In x (l1 ++ x :: l2).
  Proof. intros; apply in_or_app; right; left; reflexivity. Qed.
  Lemma in_old : forall {A} (l1 l2 : list A) x y, In y (l1 ++ l2) -> In y (l1 ++ x :: l2).
  Proof. intros A l1 l2 x y H; apply in_app_or in H; apply in_or_app; destruct H; [left|right; right]; assumption. Qed.
  Lemma in_rest : forall {A} (l1 l2 : list A) x y, In y (l1 ++ x :: l2) -> y = x \/ In y (l1 ++ l2).
  Proof. intros A l1 l2 x y H; apply in_app_or in H; destruct H as [H|[H|H]]; [right|left; auto|right]; apply in_or_app; auto. Qed.
  Lemma in_new : forall {A} (l1 l2 new : list A) x' y, In y (l1 ++ l2) -> In y (l1 ++ x' :: l2 ++ new).
  Proof. intros A l1 l2 new x' y H; apply in_app_or in H; apply in_or_app; destruct H; [left|right; right; apply in_or_app; left]; assumption. Qed.

  (** The locks are exclusive. *)
  Lemma uniq : forall s l1 x l2, InvA s -> actors s = l1 ++ x :: l2 -> 0 < hE x + hH x ->
    (forall y, In y (l1 ++ l2) -> hE y = 0 /\ hH y = 0) /\ (0 < hE x -> leaked (sh s) = false).
  Proof.
    intros s l1 x l2 (A & _ & C) E H; rewrite E, !tot_app, !tot_cons in *.
    assert (b2n (elock (sh s)) <= 1) by (destruct (elock (sh s)); cbn; lia).
    split.
    - intros y Hy; pose proof (tot_le hE (l1 ++ l2) y Hy); pose proof (tot_le hH (l1 ++ l2) y Hy); rewrite tot_app in *; lia.
    - intros P; destruct (leaked (sh s)); [cbn [b2n] in *; lia|reflexivity].
  Qed.
  Lemma uniq_other : forall s l1 x l2 y, InvA s -> actors s = l1 ++ x :: l2 -> In y (l1 ++ l2) -> 0 < hE y + hH y -> hE x = 0 /\ hH x = 0.
  Proof.
    intros s l1 x l2 y (A & _ & C) E Hy H; rewrite E, !tot_app, !tot_cons in *.
    assert (b2n (elock (sh s)) <= 1) by (destruct (elock (sh s)); cbn; lia).
    pose proof (tot_le hE (l1 ++ l2) y Hy); pose proof (tot_le hH (l1 ++ l2) y Hy); rewrite tot_app in *; lia.
  Qed.
  Lemma leaked_free : forall s y, InvA s -> leaked (sh s) = true -> In y (actors s) -> hE y = 0.
  Proof.
    intros s y (A & _ & C) L Hy; pose proof (tot_le hE _ y Hy); rewrite L in *.
    assert (b2n (elock (sh s)) <= 1) by (destruct (elock (sh s)); cbn; lia); cbn [b2n] in *; lia.
  Qed.

  Lemma at_hE : forall x pc, at_pc x pc -> w_hE pc <= hE x.
  Proof. intros x pc (r & H); unfold hE; pose proof (tot_le f_hE _ _ H); cbn [f_hE] in *; lia. Qed.
  Lemma blocker_h : forall x, blocker x -> 0 < hE x + hH x.
  Proof. intros [[cs []|] st]; cbn; intros []; unfold hE, hH; cbn; lia. Qed.
  Lemma stopper_h : forall x, stopper x -> 0 < hE x.
  Proof. intros [[cs pc|k j pc] st]; cbn; [|intros []]; destruct pc as [| | | | | | | |[]| | | | | | | | |]; intros H; try destruct H; unfold hE; cbn; lia. Qed.
  Lemma stop_blocker : forall x p, stop_of x = Some p -> blocker x.
  Proof. intros [[cs pc|k j pc] st] p0 H; unfold stop_of, blocker in *; cbn [abase] in *; [destruct pc|]; try discriminate H; exact I. Qed.

  (** Who changes what. *)
  Lemma lm_cur_hE : forall ex n x g x' g' new, lm nested ex n x g x' g' new -> cur g' = cur g \/ (0 < hE x /\ cur g' = Some (length (engs g))).
  Proof.
    intros ex n x g x' g' new H; mcases H; proj; rewrite ?store_cur; auto; right; split; auto; unfold hE; cbn; lia.
  Qed.
  Lemma lm_mode_hE : forall ex n x g x' g' new, lm nested ex n x g x' g' new -> wmode g' = wmode g \/ wmode g' = MBlocked \/ 0 < hE x.
  Proof. intros ex n x g x' g' new H; mcases H; proj; rewrite ?store_wmode; auto; right; right; unfold hE; cbn; lia. Qed.
  Lemma lm_ext : forall ex n x g x' g' new, lm nested ex n x g x' g' new -> exists es, trace g' = trace g ++ es.
  Proof. intros ex n x g x' g' new H; apply (lm_gle _ _ _ _ _ _ _ _ H). Qed.

  (** *** 1. Before the start there is no instance *)
  Definition Inv1 (s : state) : Prop :=
    (started (sh s) = false -> engs (sh s) = [] /\ forall x, In x (actors s) -> ~ late_pc x /\ ~ at_pc x W3c /\ ~ at_pc x W3d) /\
    (forall x, In x (actors s) -> at_pc x W3c -> engs (sh s) = []).

  Lemma lm_started : forall ex n x g x' g' new, lm nested ex n x g x' g' new -> started g' = false ->
    started g = false /\ (engs g = [] -> ~ late_pc x -> ~ at_pc x W3c -> ~ at_pc x W3d -> engs g' = [] /\ ~ late_pc x' /\ ~ at_pc x' W3c /\ ~ at_pc x' W3d).
  Proof.
    intros ex n x g x' g' new H F; unfold at_pc, late_pc; mcases H; proj; rewrite ?store_engs, ?store_started in *;
      try discriminate; (split; [try congruence; assumption|]); intros N A B C;
      try (exfalso; apply A; exact I);
      try (exfalso; apply B; eexists; left; reflexivity);
      try (exfalso; apply C; eexists; left; reflexivity);
      try (match goal with Q : nth_error (engs g) _ = Some _ |- _ => rewrite N in Q; destruct k; discriminate Q end);
      (split; [assumption|]); (split; [first [exact A|intros []]|]);
      try (split; intros (r1 & [Q|Q]); try discriminate Q; [apply B|apply C]; exists r1; cbn; auto; fail);
      try (split; intros (r1 & Q); cbn in Q; [apply B|apply C]; exists r1; cbn; auto; fail).
    - subst pc; destruct (wmode g); (split; intros (r1 & [Q|Q]); try discriminate Q; [apply B|apply C]; exists r1; cbn; auto; fail).
    - split; intros (r1 & [Q|[Q|Q]]); try discriminate Q; [apply B|apply C]; exists r1; cbn; auto.
    - congruence.
    - congruence.
  Qed.

  Lemma lm_c : forall ex n x g x' g' new, lm nested ex n x g x' g' new -> at_pc x' W3c ->
    (started g = false /\ engs g' = engs g) \/ (at_pc x W3c /\ (engs g = [] -> engs g' = [] \/ 2 <= hE x)).
  Proof.
    intros ex n x g x' g' new H (r0 & Q); mcases H; cbn [astack In] in Q; proj; rewrite ?store_engs; try (destruct Q; fail);
      try (left; split; [assumption|reflexivity]);
      try (right; split; [exists r0; cbn; tauto|]; intros N; left; assumption).
    all: try (right; match goal with E : nth_error (engs ?gg) ?kk = Some _ |- _ => 
       split; [exists r0; cbn; intuition congruence|]; intros N; rewrite N in E; destruct kk; discriminate end).
    all: try (right; split; [exists r0; cbn; intuition congruence|]; intros N; left; assumption).
    - subst pc; right; split; [exists r0; destruct (wmode g); cbn; intuition congruence|]; intros N; left; assumption.
    - right; destruct Q as [Q|Q]; [discriminate|]; split; [exists r0; cbn; auto|]; intros _; right.
      pose proof (tot_le f_hE _ _ Q) as T; unfold hE; cbn [astack abase]; rewrite tot_cons; cbn [f_hE w_hE] in *; lia.
  Qed.

  Lemma Inv1_trans : forall s s', InvA s -> Inv1 s -> trans nested s s' -> Inv1 s'.
  Proof.
    intros s s' IA (A & B) (l1 & x & l2 & x' & g' & new & E & H & ->); unfold Inv1; cbn [actors sh]; split.
    - intros F; destruct (lm_started _ _ _ _ _ _ _ H F) as (F0 & K); destruct (A F0) as (A1 & A2).
      destruct (A2 x) as (K1 & K2 & K3); [rewrite E; apply in_mid|]; destruct (K A1 K1 K2 K3) as (N & M & M2); split; [exact N|].
      intros y Hy; apply in_cases in Hy; destruct Hy as [->|[Hy|Hy]]; [auto|apply A2; rewrite E; apply in_old; exact Hy|].
      destruct (lm_new _ _ _ _ _ _ _ _ H Hy) as (k & j & ->); split; [intros []|split; intros (r & [])].
    - intros y Hy C; apply in_cases in Hy; destruct Hy as [->|[Hy|Hy]].
      + destruct (lm_c _ _ _ _ _ _ _ H C) as [(F & ->)|(K & L)]; [apply A; exact F|].
        destruct L as [L|L]; [apply (B x); [rewrite E; apply in_mid|exact K]|exact L|].
        exfalso; destruct IA as (I & _); rewrite E, tot_app, tot_cons in I; destruct (elock (sh s)); cbn [b2n] in I; lia.
      + assert (engs (sh s) = []) as N by (apply (B y); [rewrite E; apply in_old; exact Hy|exact C]).
        destruct (uniq_other s l1 x l2 y IA E Hy) as (U & _); [pose proof (at_hE _ _ C); cbn in *; lia|].
        mcases H; proj; rewrite ?store_engs; try exact N; try (rewrite N; reflexivity); unfold hE in U; cbn in U; lia.
      + destruct (lm_new _ _ _ _ _ _ _ _ H Hy) as (k & j & ->); destruct C as (r & []).
  Qed.
  Lemma Inv1_init : forall progs p q, Inv1 (init progs p q).
  Proof.
    intros progs p q; split; cbn.
    - intros _; split; [reflexivity|]; intros x Hx; apply in_map_iff in Hx; destruct Hx as (cs & <- & _).
      split; [intros []|split; intros (r & [])].
    - reflexivity.
  Qed.

  (** *** 2. The instance being stopped is the current one, and writes are blocked meanwhile *)
  Definition q2 (g : shared) (x : act) : Prop :=
    (blocker x -> wmode g = MBlocked) /\
    (forall p k, stop_of x = Some p -> p_eng p = Some k -> cur g = Some k /\ In (EvStopBegin k) (trace g)) /\
    (forall k, at_pc x (B3 k) -> cur g = Some k) /\
    (match abase x with BThread _ (H3 _) => In EvHookBlock (trace g) | _ => True end).

  Lemma at_cons : forall b f l pc, at_pc (mkAct b (f :: l)) pc -> (exists r, f = FWrite pc r) \/ at_pc (mkAct b l) pc.
  Proof. intros b f l pc (r & [Q|Q]); [left; eauto|right; exists r; exact Q]. Qed.
  Lemma at_deep : forall b b' f l pc, at_pc (mkAct b l) pc -> at_pc (mkAct b' (f :: l)) pc.
  Proof. intros b b' f l pc (r & Q); exists r; right; exact Q. Qed.
  Lemma at_two : forall b pc1 r l pc, at_pc (mkAct b l) pc -> w_hE pc1 = 1 -> w_hE pc = 1 -> 2 <= hE (mkAct b (FWrite pc1 r :: l)).
  Proof. intros b pc1 r l pc H A B; apply at_hE in H; unfold hE in *; cbn [astack abase] in *; rewrite tot_cons; cbn [f_hE]; lia. Qed.

  (** Only a thread between commands and a busy worker have a call stack. *)
  Lemma frame_base : forall g a b f l, actor_ok g a (mkAct b (f :: l)) -> (exists cs, b = BThread cs TNext) \/ (exists k j, b = BWorker k j KBusy).
  Proof.
    intros g a b f l (_ & B); cbn [abase astack] in B; destruct b as [cs pc|k j pc]; cbn [base_ok] in B.
    - destruct B as [B _]; destruct pc; try (specialize (B ltac:(discriminate)); discriminate B); left; eauto.
    - destruct B as (e & _ & _ & _ & _ & B & _); destruct pc; try (specialize (B ltac:(discriminate)); discriminate B); right; eauto.
  Qed.
  Ltac fbase A := try match type of A with actor_ok _ _ (mkAct ?b (_ :: _)) =>
    destruct (frame_base _ _ _ _ _ A) as [(cs0 & ->)|(k0 & j0 & ->)] end.

  Lemma lm_q2 : forall ex n x g x' g' new a, lm nested ex n x g x' g' new -> actor_ok g a x -> hE x <= 1 -> q2 g x -> q2 g' x'.
  Proof.
    intros ex n x g x' g' new a H OK U (A & B & C & D).
    mcases H; fbase OK; proj; rewrite ?store_cur, ?store_wmode, ?store_trace in *; unfold q2; cbn [abase];
      (split; [first [intros []; fail|intros _; reflexivity|intros _; apply A; exact I|exact A]|]);
      (split; [|split; [|first [exact I|exact D|proj; apply in_or_app; right; left; reflexivity|proj; apply in_or_app; left; exact D]]]);
      try (intros p0 k1 S1 S2; cbn in S1; discriminate S1);
      try (intros p0 k1 S1 S2; cbn in S1; injection S1 as <-; discriminate S2);
      try (intros k1 (? & []); fail);
      try (intros k1 Q; proj; rewrite ?store_cur; apply C; first [exact Q | apply at_cons in Q; destruct Q as [(? & Q)|Q]; [discriminate Q|]; eapply at_deep; exact Q]; fail).
    all: try (intros p0 k1 S1 S2; cbn in S1; injection S1 as <-; cbn in S2; injection S2 as <-; proj; first [apply (B _ _ eq_refl eq_refl)|split; [assumption|apply in_or_app; right; left; reflexivity]]).
    all: try (intros k1 Q; subst pc; apply at_cons in Q; destruct Q as [(? & Q)|Q]; [destruct (wmode g); discriminate Q|]; apply C; eapply at_deep; exact Q).
    all: try (intros k1 Q; apply at_cons in Q; destruct Q as [(? & Q)|Q]; [discriminate Q|]; exfalso; pose proof (at_two _ W3c r _ _ Q eq_refl eq_refl); lia).
    all: try (intros k1 Q; apply at_deep with (b' := BThread [] TNext) (f := FWrite W0 0) in Q; apply at_cons in Q; destruct Q as [(? & Q)|Q]; [discriminate Q|]; proj; apply C; eapply at_deep; exact Q).
    all: try (intros k1 Q; apply at_cons in Q; destruct Q as [(? & Q)|Q]; [discriminate Q|]; apply at_cons in Q; destruct Q as [(? & Q)|Q]; [discriminate Q|]; proj; apply C; eapply at_deep; exact Q).
    all: try (intros k1 Q; apply at_cons in Q; destruct Q as [(? & Q)|Q]; [injection Q as <- <-; assumption|]; proj; apply C; eapply at_deep; exact Q).
    all: intros k1 (r1 & [Q|[]]); discriminate Q.
  Qed.

  Definition Inv2 (s : state) : Prop := forall x, In x (actors s) -> q2 (sh s) x.

  Lemma hE_le : forall s x, InvA s -> In x (actors s) -> hE x <= 1.
  Proof. intros s x (A & _) H; pose proof (tot_le hE _ x H); destruct (elock (sh s)); cbn [b2n] in A; lia. Qed.

  Lemma Inv2_trans : forall s s', InvA s -> InvE s -> Inv2 s -> trans nested s s' -> Inv2 s'.
  Proof.
    intros s s' IA (IE & _) A (l1 & x & l2 & x' & g' & new & E & H & ->); unfold Inv2; cbn [actors sh].
    assert (In x (actors s)) as Ix by (rewrite E; apply in_mid).
    assert (actor_ok (sh s) (length l1) x) as Ax by (apply IE; rewrite E, nth_error_app2, Nat.sub_diag by lia; reflexivity).
    intros y Hy; apply in_cases in Hy; destruct Hy as [->|[Hy|Hy]].
    - eapply lm_q2; [exact H|exact Ax|apply (hE_le s); assumption|apply A; exact Ix].
    - destruct (A y) as (Q1 & Q2 & Q3 & Q4); [rewrite E; apply in_old; exact Hy|].
      destruct (lm_ext _ _ _ _ _ _ _ H) as (es & T).
      assert (0 < hE y + hH y -> cur g' = cur (sh s) /\ (wmode (sh s) = MBlocked -> wmode g' = MBlocked)) as K.
      { intros P; destruct (uniq_other s l1 x l2 y IA E Hy P) as (U & _); split.
        - destruct (lm_cur_hE _ _ _ _ _ _ _ H) as [K|[K _]]; [exact K|lia].
        - intros W; destruct (lm_mode_hE _ _ _ _ _ _ _ H) as [K|[K|K]]; [congruence|exact K|lia]. }
      split; [|split; [|split]].
      + intros B; apply K; [apply blocker_h; exact B|apply Q1; exact B].
      + intros p k S1 S2; destruct (Q2 p k S1 S2) as (C & I); destruct (K (blocker_h _ (stop_blocker _ _ S1))) as (-> & _).
        split; [exact C|]; rewrite T; apply in_or_app; auto.
      + intros k P; destruct K as (-> & _); [pose proof (at_hE _ _ P); cbn in *; lia|apply Q3; exact P].
      + destruct (abase y) as [cs []|]; auto; rewrite T; apply in_or_app; auto.
    - destruct (lm_new _ _ _ _ _ _ _ _ H Hy) as (k & j & ->); split; [intros []|split; [intros p k0 S1; discriminate S1|split; [intros k0 (r & [])|exact I]]].
  Qed.
  Lemma Inv2_init : forall progs p q, Inv2 (init progs p q).
  Proof.
    intros progs p q x Hx; apply in_map_iff in Hx; destruct Hx as (cs & <- & _).
    split; [intros []|split; [intros p0 k0 S1; discriminate S1|split; [intros k0 (r & [])|exact I]]].
  Qed.

  (** *** 3. While the stopped instance is the current one, a reload or the hook holds the engine lock *)
  Definition Inv3 (s : state) : Prop := forall k, In (EvStopBegin k) (trace (sh s)) ->
    k < length (engs (sh s)) /\
    (cur (sh s) = Some k -> wmode (sh s) = MBlocked /\ (leaked (sh s) = true \/ exists x, In x (actors s) /\ stopper x)).

  Lemma lm_es : forall ex n x g x' g' new, lm nested ex n x g x' g' new -> exists es, trace g' = trace g ++ es /\
    (forall k, In (EvStopBegin k) es -> es = [EvStopBegin k] /\ stop_of x = Some P0 /\ stop_of x' = Some (PWait k) /\ (hH x' = hH x) /\
       cur g = Some k /\ cur g' = Some k /\ wmode g' = wmode g /\ leaked g' = leaked g /\ k < length (engs g) /\ engs g' = engs g) /\
    (forall k, In (EvStopEnd k) es -> es = [EvStopEnd k] /\ stop_of x' = Some PActive /\ exists i e, stop_of x = Some (PJoin k i) /\ nth_error (engs g) k = Some e /\ e_count e <= i).
  Proof.
    intros ex n x g x' g' new H; mcases H; proj; rewrite ?store_trace;
      try (exists []; rewrite app_nil_r; split; [reflexivity|split; intros k1 []]; fail);
      (eexists; split; [reflexivity|]; split; intros k1 Hk; cbn [In] in Hk; try (intuition discriminate)).
    all: destruct Hk as [Hk|[]]; injection Hk as <-.
    all: try (repeat (split; [try reflexivity; assumption|]); split; [apply nth_error_Some; congruence|reflexivity]).
    all: split; [reflexivity|]; split; [reflexivity|]; eexists _, _; split; [reflexivity|]; split; [exact PE|exact PL].
  Qed.
  Lemma lm_stopper : forall ex n x g x' g' new, lm nested ex n x g x' g' new -> stopper x -> stopper x' \/ cur g' = Some (length (engs g)).
  Proof.
    intros ex n x g x' g' new H S; mcases H; unfold stopper in *; cbn [abase] in *; try (destruct S; fail); auto.
    all: destruct b as [cs pc0|]; auto.
  Qed.
  Lemma stopper_mode : forall ex n x g x' g' new, lm nested ex n x g x' g' new -> astack x = [] -> stopper x -> wmode g' = wmode g.
  Proof. intros ex n x g x' g' new H T S; mcases H; unfold stopper in *; cbn [abase astack] in *; try (destruct S; fail); try discriminate T; reflexivity. Qed.
  Lemma stopper_stack : forall g a x, actor_ok g a x -> stopper x -> astack x = [].
  Proof.
    intros g a [b [|f l]] H S; [reflexivity|]; destruct (frame_base _ _ _ _ _ H) as [(cs & ->)|(k & j & ->)]; destruct S.
  Qed.

  Lemma Inv3_trans : forall s s', InvA s -> InvE s -> Inv2 s -> Inv3 s -> trans nested s s' -> Inv3 s'.
  Proof.
    intros s s' IA (IE & _) I2 A (l1 & x & l2 & x' & g' & new & E & H & ->); unfold Inv3; cbn [actors sh].
    assert (In x (actors s)) as Ix by (rewrite E; apply in_mid).
    assert (actor_ok (sh s) (length l1) x) as Ax by (apply IE; rewrite E, nth_error_app2, Nat.sub_diag by lia; reflexivity).
    destruct (lm_es _ _ _ _ _ _ _ H) as (es & T & TB & TE); intros k; rewrite T; intros Hk; apply in_app_or in Hk; destruct Hk as [Hk|Hk].
    - destruct (A k Hk) as (L & K); destruct (lm_gle _ _ _ _ _ _ _ _ H) as (_ & GL & _ & LK & _); split; [lia|]; intros C.
      destruct (lm_cur_hE _ _ _ _ _ _ _ H) as [C2|[_ C2]]; [|rewrite C2 in C; injection C; lia].
      rewrite C in C2; symmetry in C2; destruct (K C2) as (M & [Z|(y & Hy & Sy)]).
      + split; [|auto]; destruct (lm_mode_hE _ _ _ _ _ _ _ H) as [W|[W|W]]; [congruence|exact W|].
        pose proof (leaked_free s x IA Z Ix); lia.
      + rewrite E in Hy; apply in_rest in Hy; destruct Hy as [->|Hy].
        * split; [rewrite (stopper_mode _ _ _ _ _ _ _ H (stopper_stack _ _ _ Ax Sy) Sy); exact M|].
          destruct (lm_stopper _ _ _ _ _ _ _ H Sy) as [S|S]; [right; exists x'; split; [apply in_mid|exact S]|]; exfalso; rewrite C in S; injection S; lia.
        * split; [|right; exists y; split; [apply in_new; exact Hy|exact Sy]].
          pose proof (stopper_h _ Sy); destruct (uniq_other s l1 x l2 y IA E Hy) as (U & _); [lia|].
          destruct (lm_mode_hE _ _ _ _ _ _ _ H) as [W|[W|W]]; [congruence|exact W|lia].
    - destruct (TB k Hk) as (_ & S1 & S2 & HH & C1 & C2 & WM & LK & L & EG); rewrite EG; split; [exact L|]; intros _.
      destruct (I2 x Ix) as (Q1 & _); split; [rewrite WM; apply Q1, (stop_blocker _ _ S1)|].
      destruct x' as [[cs [| | | | | | | |[]| | | | | | | | |]|] st]; cbn in S2; try discriminate S2.
      + right; eexists; split; [apply in_mid|exact I].
      + left; rewrite LK; destruct IA as (_ & _ & IH); rewrite E, tot_app, tot_cons, <- HH in IH; cbn [hH abase] in IH.
        destruct (leaked (sh s)); [reflexivity|cbn [b2n] in IH; lia].
  Qed.
  Lemma Inv3_init : forall progs p q, Inv3 (init progs p q).
  Proof. intros progs p q k []. Qed.

  (** *** 4. Flags; queue bounds *)
  Definition Inv4 (s : state) : Prop :=
    (forall k e j, nth_error (engs (sh s)) k = Some e -> nth j (e_flags e) false = true -> In (EvStopBegin k) (trace (sh s))) /\
    (forall k e, nth_error (engs (sh s)) k = Some e -> e_max e = 0 \/ length (e_queue e) <= e_max e).

  Lemma nth_repeat_false : forall n j, nth j (repeat false n) false = false.
  Proof. induction n as [|n IH]; intros [|j]; cbn; auto. Qed.
  Lemma lm_flags : forall ex n x g x' g' new, lm nested ex n x g x' g' new -> forall k e', nth_error (engs g') k = Some e' ->
    (forall j, nth j (e_flags e') false = true -> (exists e, nth_error (engs g) k = Some e /\ nth j (e_flags e) false = true) \/ exists i, stop_of x = Some (PFlag k i)) /\
    ((forall e, nth_error (engs g) k = Some e -> e_max e = 0 \/ length (e_queue e) <= e_max e) -> e_max e' = 0 \/ length (e_queue e') <= e_max e').
  Proof.
    intros ex n x g x' g' new H k1 e' E'.
    assert (forall g2, engs g2 = engs g -> nth_error (engs g2) k1 = Some e' -> 
      (forall j, nth j (e_flags e') false = true -> (exists e, nth_error (engs g) k1 = Some e /\ nth j (e_flags e) false = true) \/ exists i, stop_of x = Some (PFlag k1 i)) /\
      ((forall e, nth_error (engs g) k1 = Some e -> e_max e = 0 \/ length (e_queue e) <= e_max e) -> e_max e' = 0 \/ length (e_queue e') <= e_max e')) as Same.
    { intros g2 Q1 Q2; rewrite Q1 in Q2; split; [left; eauto|auto]. }
    assert (nth_error (engs (load g n)) k1 = Some e' -> 
      (forall j, nth j (e_flags e') false = true -> (exists e, nth_error (engs g) k1 = Some e /\ nth j (e_flags e) false = true) \/ exists i, stop_of x = Some (PFlag k1 i)) /\
      ((forall e, nth_error (engs g) k1 = Some e -> e_max e = 0 \/ length (e_queue e) <= e_max e) -> e_max e' = 0 \/ length (e_queue e') <= e_max e')) as Load.
    { intros Q; cbn [load engs] in Q; destruct (lt_dec k1 (length (engs g))) as [L|L].
      - rewrite nth_error_app1 in Q by exact L; split; [left; eauto|auto].
      - rewrite nth_error_app2 in Q by lia; destruct (k1 - length (engs g)) as [|d]; [|destruct d; discriminate]; injection Q as <-; cbn [new_eng e_flags e_max e_queue length].
        split; [intros j J; rewrite nth_repeat_false in J; discriminate|intros _; lia]. }
    mcases H; try (apply Load; exact E'); try (eapply Same; [|exact E']; proj; rewrite ?store_engs; reflexivity).
    all: cbn [emit set_eng engs] in E'; rewrite nth_error_upd in E'.
    all: match type of E' with (if Nat.eqb ?a ?b then _ else _) = _ => destruct (Nat.eqb_spec a b) as [->|N]; [|apply (Same g); [reflexivity|exact E']] end.
    all: match goal with Q : nth_error (engs ?gg) ?kk = Some ?ee |- _ => rewrite Q in E'; injection E' as <- end; cbn [set_queue set_flags e_flags e_queue e_max]; split.
    all: try (left; eauto; fail).
    all: try match goal with |- (forall e, _) -> _ => intros Q; specialize (Q _ ltac:(eassumption)); try exact Q end.
    - unfold room in *; rewrite app_length; cbn [length].
      match goal with R : _ || _ = true |- _ => apply orb_true_iff in R; destruct R as [R|R]; [apply Nat.eqb_eq in R; auto|apply Nat.ltb_lt in R; lia] end.
    - unfold room in *; rewrite app_length; cbn [length].
      match goal with R : _ || _ = true |- _ => apply orb_true_iff in R; destruct R as [R|R]; [apply Nat.eqb_eq in R; auto|apply Nat.ltb_lt in R; lia] end.
    - intros j; right; eexists; reflexivity.
    - intros j; right; eexists; reflexivity.
    - match goal with R : e_queue _ = _ |- _ => rewrite R in Q end; cbn [length] in Q; lia.
  Qed.

  Lemma Inv4_trans : forall s s', Inv2 s -> Inv4 s -> trans nested s s' -> Inv4 s'.
  Proof.
    intros s s' I2 (A & B) (l1 & x & l2 & x' & g' & new & E & H & ->); unfold Inv4; cbn [actors sh].
    assert (In x (actors s)) as Ix by (rewrite E; apply in_mid).
    destruct (lm_ext _ _ _ _ _ _ _ H) as (es & T); rewrite T; split.
    - intros k e' j E' F; apply in_or_app; left; destruct (lm_flags _ _ _ _ _ _ _ H k e' E') as (K & _).
      destruct (K j F) as [(e & Ee & Fe)|(i & S)]; [eapply A; eassumption|].
      apply (I2 x Ix) with (p := PFlag k i); [exact S|reflexivity].
    - intros k e' E'; apply (lm_flags _ _ _ _ _ _ _ H k e' E'); intros e; apply B.
  Qed.
  Lemma Inv4_init : forall progs p q, Inv4 (init progs p q).
  Proof. intros progs p q; split; intros [|k] e; try intros j; discriminate. Qed.
End Stop.
