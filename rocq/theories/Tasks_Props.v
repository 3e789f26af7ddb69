(** C58: with-blocks of different tasks do not interfere, if no task is created inside a block. *)
From Coq Require Import Lia.
From Verif Require Import Base Tasks_Model.
Local Open Scope list_scope.

(** The blocks that each task has entered and not left, by the operations alone: the last entered first. *)
Definition open_step (st : (tid -> list nat) * nat) (o : op) : (tid -> list nat) * nat :=
  let '(f, n) := st in
  match o with
  | TEnter t => (upd f t (n :: f t), S n)
  | TExit t => (upd f t (tl (f t)), n)
  | TTask _ u | TThread u => (upd f u [], n)
  end.
(** Properly nested programs: a block is left only if the task is in one; new tasks and threads are created by tasks that
    are not in a block ([TTask]) and are not in a block themselves. *)
Fixpoint proper (st : (tid -> list nat) * nat) (l : list op) : Prop :=
  match l with
  | [] => True
  | o :: r => match o with
              | TExit t => fst st t <> []
              | TTask t u => fst st t = [] /\ fst st u = []
              | TThread u => fst st u = []
              | TEnter _ => True
              end /\ proper (open_step st o) r
  end.
(** What should be seen: each exit finalises the object that the same task entered last. *)
Fixpoint should (st : (tid -> list nat) * nat) (l : list op) : list seen :=
  match l with
  | [] => []
  | o :: r => match o with
              | TEnter t => [SIn t (snd st)]
              | TExit t => match fst st t with i :: _ => [SOut t i] | [] => [] end
              | _ => []
              end ++ should (open_step st o) r
  end.
Definition nothing : (tid -> list nat) * nat := (fun _ => [], 0).

(** The lists of the tasks are their own and hold exactly the open blocks. *)
Record sep (h : heap) (st : (tid -> list nat) * nat) : Prop := mkSep {
  s_next : hnext h = snd st;
  s_none : forall t, hctx h t = None <-> fst st t = [];
  s_some : forall t r, hctx h t = Some r -> r < length (hlists h) /\ nth r (hlists h) [] = rev (fst st t);
  s_inj : forall t u r, hctx h t = Some r -> hctx h u = Some r -> t = u }.

Lemma set_nth_length : forall l i x, length (set_nth l i x) = length l.
Proof. induction l as [|y r IH]; intros [|i] x; cbn; auto. Qed.
Lemma set_nth_nth : forall l i x j, i < length l -> nth j (set_nth l i x) [] = if Nat.eqb j i then x else nth j l [].
Proof.
  induction l as [|y r IH]; intros i x j H; [cbn in H; lia|].
  destruct i as [|i], j as [|j]; cbn; auto; apply IH; cbn in H; lia.
Qed.
Lemma upd_same : forall A (f : tid -> A) t v, upd f t v t = v.
Proof. intros; unfold upd; rewrite Nat.eqb_refl; reflexivity. Qed.
Lemma upd_other : forall A (f : tid -> A) t v u, u <> t -> upd f t v u = f u.
Proof. intros A f t v u H; unfold upd; destruct (Nat.eqb_spec u t); [contradiction|reflexivity]. Qed.

Lemma tasks_run : forall l h st, sep h st -> proper st l -> snd (hrun h l) = should st l.
Proof.
  induction l as [|o r IH]; intros h [f n] S P; [reflexivity|]; cbn [proper] in P; destruct P as [P0 Pr].
  destruct S as [Sn So Ss Si]; cbn [fst snd] in *.
  cbn [hrun should fst snd].
  assert (Go : forall h1 e1, hstep h o = (h1, e1) -> sep h1 (open_step (f, n) o) ->
    snd (let '(h1, e1) := hstep h o in let '(h2, e2) := hrun h1 r in (h2, e1 ++ e2)) = e1 ++ should (open_step (f, n) o) r).
  { intros h1 e1 E S1; rewrite E; pose proof (IH h1 _ S1 Pr) as R; destruct (hrun h1 r) as [h2 e2]; cbn [snd] in *; rewrite R; reflexivity. }
  destruct o as [t|t|t u|u].
  - (* enter *)
    cbn [hstep] in *; destruct (hctx h t) as [q|] eqn:Et.
    + destruct (Ss t q Et) as [Lq Nq].
      erewrite Go; [|reflexivity|]; [rewrite Sn; reflexivity|].
      split; cbn [hnext hctx hlists open_step fst snd].
      * rewrite Sn; reflexivity.
      * intros v; destruct (Nat.eq_dec v t) as [->|Nv]; [rewrite upd_same, Et; split; discriminate|rewrite upd_other by exact Nv; apply So].
      * intros v q' Ev; rewrite set_nth_length, set_nth_nth by exact Lq; destruct (Ss v q' Ev) as [L1 N1]; split; [exact L1|].
        destruct (Nat.eqb_spec q' q) as [->|Nq'].
        -- assert (v = t) by (apply (Si v t q); assumption); subst v; rewrite upd_same; cbn [rev]; rewrite Nq, Sn; reflexivity.
        -- rewrite upd_other; [exact N1|intros ->; congruence].
      * exact Si.
    + erewrite Go; [|reflexivity|]; [rewrite Sn; reflexivity|].
      split; cbn [hnext hctx hlists open_step fst snd].
      * rewrite Sn; reflexivity.
      * intros v; destruct (Nat.eq_dec v t) as [->|Nv]; [rewrite !upd_same; split; discriminate|rewrite !upd_other by exact Nv; apply So].
      * intros v q' Ev; rewrite app_length; cbn [length]; destruct (Nat.eq_dec v t) as [->|Nv].
        -- rewrite upd_same in Ev; injection Ev as <-; rewrite app_nth2, Nat.sub_diag by lia; rewrite upd_same; split; [lia|].
           apply So in Et; rewrite Et, Sn; reflexivity.
        -- rewrite upd_other in Ev by exact Nv; destruct (Ss v q' Ev) as [L1 N1]; rewrite app_nth1 by exact L1; rewrite upd_other by exact Nv; split; [lia|exact N1].
      * intros v u q' Ev Eu; destruct (Nat.eq_dec v t) as [->|Nv], (Nat.eq_dec u t) as [->|Nu]; try reflexivity.
        -- rewrite upd_same in Ev; injection Ev as <-; rewrite upd_other in Eu by exact Nu; destruct (Ss u _ Eu); lia.
        -- rewrite upd_same in Eu; injection Eu as <-; rewrite upd_other in Ev by exact Nv; destruct (Ss v _ Ev); lia.
        -- rewrite upd_other in Ev, Eu by assumption; exact (Si v u q' Ev Eu).
  - (* exit *)
    cbn [hstep] in *; destruct (f t) as [|i rest] eqn:Ef; [contradiction|].
    destruct (hctx h t) as [q|] eqn:Et; [|exfalso; apply So in Et; congruence].
    destruct (Ss t q Et) as [Lq Nq].
    assert (Rv : rev (nth q (hlists h) []) = i :: rest) by (rewrite Nq, Ef, rev_involutive; reflexivity).
    rewrite Rv in Go |- *.
    erewrite Go; [reflexivity|reflexivity|].
    match goal with |- sep ?h1 _ => assert (El : hlists h1 = set_nth (hlists h) q (rev rest)) by (destruct rest; reflexivity) end.
    split.
    + destruct rest; cbn; exact Sn.
    + intros v; cbn [open_step fst]; rewrite Ef; cbn [tl]; destruct (Nat.eq_dec v t) as [->|Nv].
      * rewrite upd_same; destruct rest; cbn [hctx]; [rewrite upd_same; split; reflexivity|rewrite Et; split; discriminate].
      * rewrite (upd_other _ f) by exact Nv; destruct rest; cbn [hctx]; [rewrite upd_other by exact Nv|]; apply So.
    + intros v q' Ev; cbn [open_step fst]; rewrite Ef; cbn [tl].
      assert (Ev' : hctx h v = Some q') by (destruct rest; cbn [hctx] in Ev; [unfold upd in Ev; destruct (Nat.eqb v t); [discriminate|exact Ev]|exact Ev]).
      rewrite El, set_nth_length, set_nth_nth by exact Lq; destruct (Ss v q' Ev') as [L1 N1]; split; [exact L1|].
      destruct (Nat.eqb_spec q' q) as [->|Nq'].
      * assert (v = t) by (apply (Si v t q); assumption); subst v; rewrite upd_same; reflexivity.
      * rewrite upd_other; [exact N1|intros ->; congruence].
    + intros v u q' Ev Eu.
      assert (B : forall w, hctx (match rest with [] => mkH (set_nth (hlists h) q (rev rest)) (upd (hctx h) t None) (hnext h) | _ => mkH (set_nth (hlists h) q (rev rest)) (hctx h) (hnext h) end) w = Some q' -> hctx h w = Some q').
      { intros w; destruct rest; cbn [hctx]; [unfold upd; destruct (Nat.eqb w t); [discriminate|auto]|auto]. }
      apply (Si v u q'); apply B; destruct rest; assumption.
  - (* task *)
    destruct P0 as [Pt Pu]; cbn [hstep] in *.
    assert (Ht : hctx h t = None) by (apply So; exact Pt).
    erewrite Go; [reflexivity|reflexivity|]; rewrite Ht; split; cbn [hnext hctx hlists open_step fst snd]; [exact Sn| | |].
    + intros v; destruct (Nat.eq_dec v u) as [->|Nv]; [rewrite !upd_same; split; reflexivity|rewrite !upd_other by exact Nv; apply So].
    + intros v q' Ev; destruct (Nat.eq_dec v u) as [->|Nv]; [rewrite upd_same in Ev; discriminate|rewrite upd_other in Ev by exact Nv; rewrite upd_other by exact Nv; apply Ss; exact Ev].
    + intros v w q' Ev Ew; apply (Si v w q'); [destruct (Nat.eq_dec v u) as [->|Nv]; [rewrite upd_same in Ev; discriminate|rewrite upd_other in Ev by exact Nv; exact Ev]|destruct (Nat.eq_dec w u) as [->|Nw]; [rewrite upd_same in Ew; discriminate|rewrite upd_other in Ew by exact Nw; exact Ew]].
  - (* thread *)
    cbn [hstep] in *; erewrite Go; [reflexivity|reflexivity|]; split; cbn [hnext hctx hlists open_step fst snd]; [exact Sn| | |].
    + intros v; destruct (Nat.eq_dec v u) as [->|Nv]; [rewrite !upd_same; split; reflexivity|rewrite !upd_other by exact Nv; apply So].
    + intros v q' Ev; destruct (Nat.eq_dec v u) as [->|Nv]; [rewrite upd_same in Ev; discriminate|rewrite upd_other in Ev by exact Nv; rewrite upd_other by exact Nv; apply Ss; exact Ev].
    + intros v w q' Ev Ew; apply (Si v w q'); [destruct (Nat.eq_dec v u) as [->|Nv]; [rewrite upd_same in Ev; discriminate|rewrite upd_other in Ev by exact Nv; exact Ev]|destruct (Nat.eq_dec w u) as [->|Nw]; [rewrite upd_same in Ew; discriminate|rewrite upd_other in Ew by exact Nw; exact Ew]].
Qed.

(** C58: in any interleaving of any number of threads and tasks, created outside of blocks, every exit finalises the block
    that the same task entered last, and no error is raised. *)
Theorem C58_tasks_do_not_interfere : forall l, proper nothing l -> snd (hrun hstart l) = should nothing l.
Proof.
  intros l P; apply tasks_run; [|exact P]; split; cbn; [reflexivity|split; reflexivity|discriminate|discriminate].
Qed.

(** C58: a thread created anywhere has its own stack. *)
Theorem C58_threads_begin_empty : forall h u, hctx (fst (hstep h (TThread u))) u = None.
Proof. intros h u; cbn; apply upd_same. Qed.

(** The claim fails for tasks created inside a block: a task can finalise the block of another one, or run into an error. *)
Theorem C58_tasks_created_in_a_block_refuted : exists l l',
  snd (hrun hstart l) = [SIn 0 0; SIn 1 1; SIn 2 2; SOut 1 2; SOut 2 1; SOut 0 0] /\
  snd (hrun hstart l') = [SIn 0 0; SIn 1 1; SOut 0 1; SOut 1 0].
Proof.
  exists [TEnter 0; TTask 0 1; TTask 0 2; TEnter 1; TEnter 2; TExit 1; TExit 2; TExit 0], [TEnter 0; TTask 0 1; TEnter 1; TExit 0; TExit 1].
  split; reflexivity.
Qed.
Theorem C58_errors_never_refuted : exists l, snd (hrun hstart l) = [SIn 0 0; SIn 1 1; SOut 1 1; SIn 2 2; SOut 0 2; SOut 0 0; SError 2 EIndexError].
Proof. exists [TEnter 0; TTask 0 1; TTask 0 2; TEnter 1; TExit 1; TEnter 2; TExit 0; TExit 0; TExit 2]; reflexivity. Qed.
Example ex_tasks : exists l, proper nothing l /\ snd (hrun hstart l) = [SIn 1 0; SIn 2 1; SIn 1 2; SOut 2 1; SOut 1 2; SOut 1 0].
Proof. exists [TTask 0 1; TThread 2; TEnter 1; TEnter 2; TEnter 1; TExit 2; TExit 1; TExit 1]; split; [cbn; repeat split; discriminate|reflexivity]. Qed.

Print Assumptions C58_tasks_do_not_interfere.
