(** The values of pool_size and max_queue_size while any number of threads change them. *)
From Verif Require Import Base Eng_Model Eng_Spec Eng_Moves Eng_Inv Eng_Struct Eng_Trace Eng_Stop Eng_Flush Eng_Hook Eng_Facts Eng_Sets Eng_Start Eng_Progress Eng_More.

Section Sizes.
  Variable nested : nat -> list nat.
  Notation reach := (reachable nested).

  (** Somebody's program asks for this value of this setting. *)
  Definition asked (progs : list (list cmd)) (k : key) (v : nat) : Prop := exists cs, In cs progs /\ In (CSet k v) cs.

  Definition of_progs (progs : list (list cmd)) (x : act) : Prop :=
    match abase x with
    | BThread cs pc => (forall k v, In (CSet k v) cs -> asked progs k v) /\ match pc with S0 k v | S1 k v => asked progs k v | _ => True end
    | BWorker _ _ _ => True
    end.
  Lemma lm_of_progs : forall progs ex n x g x' g' new, lm nested ex n x g x' g' new -> of_progs progs x -> of_progs progs x'.
  Proof.
    intros progs ex n x g x' g' new H A; mcases H; unfold of_progs in *; cbn [abase] in *; try exact A; try exact I; destruct A as (A1 & A2);
      try (split; [intros k0 v0 Hc; apply A1; try right; exact Hc|first [exact A2|exact I]]).
    split; [intros k0 v0 Hc; apply A1; right; exact Hc|apply A1; left; reflexivity].
  Qed.

  Lemma lm_sizes : forall ex n x g x' g' new, lm nested ex n x g x' g' new ->
    (psize g' = psize g /\ qmax g' = qmax g) \/
    exists cs k v, x = mkAct (BThread cs (S1 k v)) [] /\
      match k with KPool => psize g' = v /\ qmax g' = qmax g | KQueue => psize g' = psize g /\ qmax g' = v end /\ (psize g' = 0 -> qmax g' = 0).
  Proof.
    intros ex n x g x' g' new H; mcases H; auto.
    right; exists cs, k, v; split; [reflexivity|]; destruct k; cbn [store set_sizes psize qmax conflict] in *; (split; [auto|]); intros Z.
    - subst v; cbn in H; destruct (Nat.eqb_spec (qmax g) 0); [assumption|discriminate H].
    - rewrite Z in H; destruct (Nat.eqb_spec v 0); [assumption|discriminate H].
  Qed.

  (** C17: whatever the threads do, each of the two settings has the value it was created with or one that somebody asked for that
      very setting, and there is never a bounded queue without workers. *)
  Theorem C17_values : forall progs p q s, reach progs p q s ->
    (psize (sh s) = p \/ asked progs KPool (psize (sh s))) /\ (qmax (sh s) = q \/ asked progs KQueue (qmax (sh s))) /\
    ((p = 0 -> q = 0) -> psize (sh s) = 0 -> qmax (sh s) = 0).
  Proof.
    intros progs p q s R.
    assert ((forall x, In x (actors s) -> of_progs progs x) /\ (psize (sh s) = p \/ asked progs KPool (psize (sh s))) /\ (qmax (sh s) = q \/ asked progs KQueue (qmax (sh s))) /\
      ((p = 0 -> q = 0) -> psize (sh s) = 0 -> qmax (sh s) = 0)) as [_ K]; [|exact K].
    revert s R; apply (reach_inv nested (fun s => (forall x, In x (actors s) -> of_progs progs x) /\ (psize (sh s) = p \/ asked progs KPool (psize (sh s))) /\
      (qmax (sh s) = q \/ asked progs KQueue (qmax (sh s))) /\ ((p = 0 -> q = 0) -> psize (sh s) = 0 -> qmax (sh s) = 0))).
    - split; [|cbn; auto]; intros x Hx; apply in_map_iff in Hx; destruct Hx as (cs & <- & Hcs); split; [|exact I]; intros k v Hc; exists cs; auto.
    - intros s1 s2 _ _ (A & P & Q & C) (l1 & x & l2 & x' & g' & new & E & H & ->); cbn [actors sh].
      assert (of_progs progs x) as Ax by (apply A; rewrite E; apply in_mid); split.
      + intros y Hy; apply in_cases in Hy; destruct Hy as [->|[Hy|Hy]].
        * eapply lm_of_progs; [exact H|exact Ax].
        * apply A; rewrite E; apply in_old; exact Hy.
        * destruct (lm_new _ _ _ _ _ _ _ _ _ H Hy) as (k & j & ->); exact I.
      + destruct (lm_sizes _ _ _ _ _ _ _ H) as [(-> & ->)|(cs & k & v & -> & M & Z)]; [auto|].
        destruct Ax as (_ & Ax); cbn in Ax; destruct k, M as (M1 & M2); rewrite M1, M2 in *; auto.
  Qed.

  (** C17: the assignment itself.  The thread that has the settings lock gets exactly what it asked for, unless that would be a bounded
      queue without workers; the other setting is not touched. *)
  Theorem C17_assignment : forall s a cs k v s', nth_error (actors s) a = Some (mkAct (BThread cs (S1 k v)) []) -> step nested a s = Some s' ->
    let wanted := match k with KPool => (v, qmax (sh s)) | KQueue => (psize (sh s), v) end in
    (fst wanted = 0 /\ snd wanted <> 0 -> psize (sh s') = psize (sh s) /\ qmax (sh s') = qmax (sh s)) /\
    (~ (fst wanted = 0 /\ snd wanted <> 0) -> (psize (sh s'), qmax (sh s')) = wanted).
  Proof.
    intros s a cs k v s' N St; unfold step in St; rewrite N in St; cbn [lstep astack abase tstep] in St.
    destruct k; cbn [conflict value_of store fst snd] in *.
    - destruct (Nat.eqb_spec v 0) as [->|Nv], (Nat.eqb_spec (qmax (sh s)) 0) as [Eq|Nq]; cbn [andb negb] in St;
        try (destruct (Nat.eqb_spec (psize (sh s)) 0)); try (destruct (Nat.eqb_spec (psize (sh s)) v)); injection St as <-; cbn [sh set_sizes psize qmax];
        (split; [intros (U1 & U2)|intros U]); try congruence; try (split; congruence); try (exfalso; apply U; split; congruence); try contradiction.
    - destruct (Nat.eqb_spec v 0) as [->|Nv], (Nat.eqb_spec (psize (sh s)) 0) as [Eq|Nq]; cbn [andb negb] in St;
        try (destruct (Nat.eqb_spec (qmax (sh s)) 0)); try (destruct (Nat.eqb_spec (qmax (sh s)) v)); injection St as <-; cbn [sh set_sizes psize qmax];
        (split; [intros (U1 & U2)|intros U]); try congruence; try (split; congruence); try (exfalso; apply U; split; congruence); try contradiction.
  Qed.
End Sizes.

(** Two threads set the two settings at once; both succeed in one order, the second is refused in the other. *)
Definition both := [[CSet KPool 0]; [CSet KQueue 5]].
Example ex_sizes : let f ms := let s := run (fun _ => []) ms (init both 2 0) in (psize (sh s), qmax (sh s)) in
  f (repeat (Go 0) 9 ++ repeat (Go 1) 9) = (0, 0) /\ f (repeat (Go 1) 9 ++ repeat (Go 0) 9) = (2, 5).
Proof. vm_compute; auto. Qed.

Print Assumptions C17_values.
Print Assumptions C17_assignment.
