(** C38: the memory handler keeps exactly the records since the last clean, in order. *)
From Coq Require Import Lia.
From Verif Require Import Base Mem_Model.
Local Open Scope list_scope.

Section MemoryProps.
  Variable R : Type.
  Notation mop := (mop R).
  Notation mstate := (mstate R).

  (** ** What is expected *)
  (** The records since the last clean, by the operations alone. *)
  Fixpoint since (l : list mop) (acc : list R) : list R :=
    match l with
    | [] => acc
    | MCall _ r :: rest => since rest (acc ++ [r])
    | MClean _ :: rest => since rest []
    | MInit _ :: rest => since rest acc
    end.
  Fixpoint last_of (l : list R) : option R := match l with [] => None | [x] => Some x | _ :: r => last_of r end.
  (** The operations of one thread in a history. *)
  Definition of_thread (t : nat) (h : list (nat * mop)) : list mop := map snd (filter (fun e => Nat.eqb (fst e) t) h).
  (** An operation begun by a thread, whose effect is still to come. *)
  Definition begun (p : mpc R) : list mop := match p with C1 _ r => [MCall R r] | K1 _ => [MClean R] | _ => [] end.

  Lemma upd_same : forall A (f : nat -> A) k v, upd f k v k = v.
  Proof. intros; unfold upd; rewrite Nat.eqb_refl; reflexivity. Qed.
  Lemma upd_other : forall A (f : nat -> A) k v x, x <> k -> upd f k v x = f x.
  Proof. intros A f k v x N; unfold upd; destruct (Nat.eqb_spec x k); congruence. Qed.
  Lemma since_app : forall a b acc, since (a ++ b) acc = since b (since a acc).
  Proof. induction a as [|[|r|] a IH]; intros b acc; cbn; auto. Qed.
  Lemma last_of_app : forall l x, last_of (l ++ [x]) = Some x.
  Proof. induction l as [|y r IH]; intros x; [reflexivity|]; cbn; rewrite IH; destruct (r ++ [x]) eqn:E; [destruct r; discriminate|reflexivity]. Qed.
  Lemma of_thread_snoc : forall t h u o, of_thread t (h ++ [(u, o)]) = of_thread t h ++ (if Nat.eqb u t then [o] else []).
  Proof. intros t h u o; unfold of_thread; rewrite filter_app, map_app; cbn; destruct (Nat.eqb u t); reflexivity. Qed.
  Lemma set_nth_length : forall l i x, length (set_nth R l i x) = length l.
  Proof. induction l as [|y r IH]; intros [|i] x; cbn; auto. Qed.
  Lemma set_nth_nth : forall l i x j, i < length l -> nth j (set_nth R l i x) [] = if Nat.eqb j i then x else nth j l [].
  Proof.
    induction l as [|y r IH]; intros i x j H; [cbn in H; lia|].
    destruct i as [|i], j as [|j]; cbn; auto; apply IH; cbn in H; lia.
  Qed.

  (** ** The invariant *)
  Definition inside (p : mpc R) : bool := match p with C1 _ _ | C2 _ _ | C3 _ | K1 _ | K2 _ | K3 _ => true | _ => false end.
  Record inv (p0 : nat -> list mop) (s : mstate) (h : list (nat * mop)) : Prop := mkInv {
    i_init : inited R s = true;
    i_noinit : forall t, pcs R s t <> I1 R /\ pcs R s t <> I2 R;
    i_len : all R s = Some (length (lists R s) - 1) /\ 0 < length (lists R s);
    i_all : seen_all R s = since (map snd h) [];
    i_prog : forall t, of_thread t h ++ begun (pcs R s t) ++ progs R s t = p0 t;
    i_sem : forall t, inside (pcs R s t) = true <-> sem R s = Some t;
    i_last : match sem R s with
             | None => last R s = last_of (seen_all R s)
             | Some t => match pcs R s t with
                         | C2 _ r => exists l, seen_all R s = l ++ [r]
                         | K2 _ => seen_all R s = []
                         | _ => last R s = last_of (seen_all R s)
                         end
             end }.

  Lemma inv_start : forall p0, inv p0 (mstart R p0) [].
  Proof. intros p0; split; cbn; try reflexivity; try (split; [reflexivity|lia]); intros; try (split; discriminate); reflexivity. Qed.

  Lemma inv_step : forall p0 s h t s', inv p0 s h -> mstep R s t = Some s' ->
    exists h1, inv p0 s' (h ++ h1) /\ forall e, In e h1 -> fst e = t.
  Proof.
    intros p0 s h t s' [Hi Hn Hl Ha Hp Hs Hla] E; unfold mstep in E.
    assert (NP : forall u p, u <> t -> upd (pcs R s) t p u = pcs R s u) by (intros; apply upd_other; assumption).
    assert (SEM1 : forall p, inside (pcs R s t) = true -> inside p = true -> forall u, inside (upd (pcs R s) t p u) = true <-> sem R s = Some u).
    { intros p A B u; destruct (Nat.eq_dec u t) as [->|N]; [rewrite upd_same, B; apply Hs in A; rewrite A; tauto|rewrite NP by exact N; apply Hs]. }
    assert (SEM0 : forall p, inside (pcs R s t) = true -> inside p = false -> forall u, inside (upd (pcs R s) t p u) = true <-> None = Some u).
    { intros p A B u; destruct (Nat.eq_dec u t) as [->|N]; [rewrite upd_same, B; split; discriminate|rewrite NP by exact N].
      split; [|discriminate]; intros U; apply Hs in U; apply Hs in A; congruence. }
    assert (NOI : forall p, p <> I1 R -> p <> I2 R -> forall u, upd (pcs R s) t p u <> I1 R /\ upd (pcs R s) t p u <> I2 R).
    { intros p A B u; destruct (Nat.eq_dec u t) as [->|N]; [rewrite upd_same; auto|rewrite NP by exact N; apply Hn]. }
    assert (PROG0 : forall p, begun p = begun (pcs R s t) -> forall u, of_thread u h ++ begun (upd (pcs R s) t p u) ++ progs R s u = p0 u).
    { intros p A u; destruct (Nat.eq_dec u t) as [->|N]; [rewrite upd_same, A; apply Hp|rewrite NP by exact N; apply Hp]. }
    assert (PROG1 : forall p o, begun p = [] -> begun (pcs R s t) = [o] -> forall u, of_thread u (h ++ [(t, o)]) ++ begun (upd (pcs R s) t p u) ++ progs R s u = p0 u).
    { intros p o A B u; rewrite of_thread_snoc; destruct (Nat.eq_dec u t) as [->|N].
      - rewrite upd_same, Nat.eqb_refl, A; cbn [app]; rewrite <- app_assoc; rewrite <- B; apply Hp.
      - rewrite NP by exact N; destruct (Nat.eqb_spec t u); [congruence|rewrite app_nil_r; apply Hp]. }
    destruct (pcs R s t) eqn:P.
    - destruct (progs R s t) as [|o rest] eqn:Q; [discriminate|].
      destruct o as [|r|].
      + rewrite Hi in E; injection E as <-; exists [(t, MInit R)]; split; [|intros e [<-|[]]; reflexivity].
        split; cbn [inited pcs lists all go pop progs sem last].
        * exact Hi.
        * apply NOI; discriminate.
        * exact Hl.
        * rewrite map_app, since_app; cbn; exact Ha.
        * intros u; rewrite of_thread_snoc; destruct (Nat.eq_dec u t) as [->|N].
          -- rewrite !upd_same, Nat.eqb_refl, Q; cbn; rewrite <- app_assoc; cbn; specialize (Hp t); rewrite P, Q in Hp; exact Hp.
          -- rewrite !upd_other by exact N; destruct (Nat.eqb_spec t u); [congruence|rewrite app_nil_r; apply Hp].
        * intros u; destruct (Nat.eq_dec u t) as [->|N]; [rewrite upd_same, <- Hs, P; reflexivity|rewrite upd_other by exact N; apply Hs].
        * change (seen_all R (go R (pop R s t) t (Idle R))) with (seen_all R s); destruct (sem R s) as [u|] eqn:Se; [|exact Hla].
          rewrite upd_other; [exact Hla|intros ->; assert (inside (pcs R s t) = true) by (apply Hs; reflexivity); rewrite P in *; discriminate].
      + destruct (sem R s) as [v|] eqn:Se; [discriminate|]; injection E as <-; exists []; rewrite app_nil_r; split; [|intros e []].
        split; cbn [inited pcs lists all go pop progs sem last set_sem].
        * exact Hi.
        * apply NOI; discriminate.
        * exact Hl.
        * exact Ha.
        * intros u; destruct (Nat.eq_dec u t) as [->|N].
          -- rewrite !upd_same, Q; cbn; specialize (Hp t); rewrite P, Q in Hp; exact Hp.
          -- rewrite !upd_other by exact N; apply Hp.
        * intros u; destruct (Nat.eq_dec u t) as [->|N]; [rewrite upd_same; cbn; tauto|rewrite upd_other by exact N; rewrite Hs].
          split; [discriminate|intros K; injection K as ->; contradiction].
        * rewrite upd_same; exact Hla.
      + destruct (sem R s) as [v|] eqn:Se; [discriminate|]; injection E as <-; exists []; rewrite app_nil_r; split; [|intros e []].
        split; cbn [inited pcs lists all go pop progs sem last set_sem].
        * exact Hi.
        * apply NOI; discriminate.
        * exact Hl.
        * exact Ha.
        * intros u; destruct (Nat.eq_dec u t) as [->|N].
          -- rewrite !upd_same, Q; cbn; specialize (Hp t); rewrite P, Q in Hp; exact Hp.
          -- rewrite !upd_other by exact N; apply Hp.
        * intros u; destruct (Nat.eq_dec u t) as [->|N]; [rewrite upd_same; cbn; tauto|rewrite upd_other by exact N; rewrite Hs].
          split; [discriminate|intros K; injection K as ->; contradiction].
        * rewrite upd_same; exact Hla.
    - exfalso; now apply (proj1 (Hn t)).
    - exfalso; now apply (proj2 (Hn t)).
    - (* append *)
      destruct Hl as [Hl Hl0]; rewrite Hl in E; injection E as <-; exists [(t, MCall R r)]; split; [|intros e [<-|[]]; reflexivity].
      assert (St : sem R s = Some t) by (apply Hs; rewrite P; reflexivity).
      assert (Sa : nth (length (lists R s) - 1) (lists R s) [] = since (map snd h) []) by (rewrite <- Ha; unfold seen_all; rewrite Hl; reflexivity).
      assert (Sa' : seen_all R (go R (set_lists R s (set_nth R (lists R s) (length (lists R s) - 1) (nth (length (lists R s) - 1) (lists R s) [] ++ [r]))) t (C2 R r)) = since (map snd h) [] ++ [r]).
      { unfold seen_all; cbn; rewrite Hl, set_nth_nth, Nat.eqb_refl, Sa by lia; reflexivity. }
      split.
      * exact Hi.
      * cbn; apply NOI; discriminate.
      * cbn; rewrite set_nth_length; split; [exact Hl|exact Hl0].
      * rewrite Sa', map_app, since_app; reflexivity.
      * cbn; apply PROG1; reflexivity.
      * cbn; apply SEM1; reflexivity.
      * cbn [sem go set_lists]; rewrite St; cbn [pcs go set_lists]; rewrite upd_same; eexists; exact Sa'.
    - (* last *)
      injection E as <-; exists []; rewrite app_nil_r; split; [|intros e []].
      assert (St : sem R s = Some t) by (apply Hs; rewrite P; reflexivity).
      split.
      * exact Hi.
      * cbn; apply NOI; discriminate.
      * exact Hl.
      * exact Ha.
      * cbn; apply PROG0; reflexivity.
      * cbn; apply SEM1; reflexivity.
      * cbn [sem go set_last]; rewrite St; cbn [pcs go set_last]; rewrite upd_same; rewrite St, P in Hla; destruct Hla as (l & El).
        change (seen_all R (go R (set_last R s (Some r)) t (C3 R))) with (seen_all R s); rewrite El, last_of_app; reflexivity.
    - injection E as <-; exists []; rewrite app_nil_r; split; [|intros e []].
      assert (St : sem R s = Some t) by (apply Hs; rewrite P; reflexivity).
      split.
      * exact Hi.
      * cbn; apply NOI; discriminate.
      * exact Hl.
      * exact Ha.
      * cbn; apply PROG0; reflexivity.
      * cbn; apply SEM0; reflexivity.
      * cbn; rewrite St, P in Hla; exact Hla.
    - (* clean *)
      injection E as <-; exists [(t, MClean R)]; split; [|intros e [<-|[]]; reflexivity].
      assert (St : sem R s = Some t) by (apply Hs; rewrite P; reflexivity).
      assert (Sa' : seen_all R (go R (fresh_list R s) t (K2 R)) = []) by (unfold seen_all; cbn; rewrite app_nth2, Nat.sub_diag by lia; reflexivity).
      split.
      * exact Hi.
      * cbn; apply NOI; discriminate.
      * cbn; rewrite app_length; cbn; split; [f_equal; lia|lia].
      * rewrite Sa', map_app, since_app; reflexivity.
      * cbn; apply PROG1; reflexivity.
      * cbn; apply SEM1; reflexivity.
      * cbn [sem go fresh_list]; rewrite St; cbn [pcs go fresh_list]; rewrite upd_same; exact Sa'.
    - injection E as <-; exists []; rewrite app_nil_r; split; [|intros e []].
      assert (St : sem R s = Some t) by (apply Hs; rewrite P; reflexivity).
      split.
      * exact Hi.
      * cbn; apply NOI; discriminate.
      * exact Hl.
      * exact Ha.
      * cbn; apply PROG0; reflexivity.
      * cbn; apply SEM1; reflexivity.
      * cbn [sem go set_last]; rewrite St; cbn [pcs go set_last]; rewrite upd_same; rewrite St, P in Hla.
        change (seen_all R (go R (set_last R s None) t (K3 R))) with (seen_all R s); rewrite Hla; reflexivity.
    - injection E as <-; exists []; rewrite app_nil_r; split; [|intros e []].
      assert (St : sem R s = Some t) by (apply Hs; rewrite P; reflexivity).
      split.
      * exact Hi.
      * cbn; apply NOI; discriminate.
      * exact Hl.
      * exact Ha.
      * cbn; apply PROG0; reflexivity.
      * cbn; apply SEM0; reflexivity.
      * cbn; rewrite St, P in Hla; exact Hla.
  Qed.

  Lemma inv_run : forall l p0 s h s', inv p0 s h -> mrun R s l = Some s' -> exists h1, inv p0 s' (h ++ h1).
  Proof.
    induction l as [|t r IH]; intros p0 s h s' I E; cbn in E.
    - injection E as <-; exists []; rewrite app_nil_r; exact I.
    - destruct (mstep R s t) as [s1|] eqn:E1; [|discriminate].
      destruct (inv_step p0 s h t s1 I E1) as (h1 & I1 & _); destruct (IH p0 s1 _ s' I1 E) as (h2 & I2).
      exists (h1 ++ h2); rewrite app_assoc; exact I2.
  Qed.

  (** C38: in every interleaving there is one order of the operations of all threads, agreeing with the order of every thread,
      such that handler.all is what this order leaves since the last clean; whenever nobody is inside, handler.last is its
      last element, and at the end all operations are in the order. *)
  Theorem C38_history : forall p0 l s, mrun R (mstart R p0) l = Some s -> exists h,
    (forall t, exists pending, of_thread t h ++ pending ++ progs R s t = p0 t /\ length pending <= 1) /\
    seen_all R s = since (map snd h) [] /\
    (sem R s = None -> last R s = last_of (seen_all R s) /\ forall t, of_thread t h ++ progs R s t = p0 t).
  Proof.
    intros p0 l s E; destruct (inv_run l p0 _ [] s (inv_start p0) E) as (h & [Hi Hn Hl Ha Hp Hs Hla]); cbn [app] in *.
    exists h; split; [|split].
    - intros t; exists (begun (pcs R s t)); split; [apply Hp|destruct (pcs R s t); cbn; lia].
    - exact Ha.
    - intros Se; rewrite Se in Hla; split; [exact Hla|].
      intros t; specialize (Hp t); destruct (pcs R s t) eqn:P; cbn in Hp; try exact Hp;
      (assert (X : sem R s = Some t) by (apply Hs; rewrite P; reflexivity); congruence).
  Qed.

  (** C38: one thread: all and last after any sequence of operations. *)
  Theorem C38_one_thread : forall ops l s, mrun R (mstart R (fun t => match t with 0 => ops | _ => [] end)) l = Some s ->
    (forall t, progs R s t = []) -> sem R s = None -> seen_all R s = since ops [] /\ last R s = last_of (since ops []).
  Proof.
    intros ops l s E D Se; destruct (C38_history _ l s E) as (h & _ & Ha & H); destruct (H Se) as [Hl Hp].
    assert (Q : map snd h = ops).
    { pose proof (Hp 0) as P0; rewrite D, app_nil_r in P0; rewrite <- P0.
      assert (A : forall e, In e h -> fst e = 0).
      { intros [t o] K; destruct t as [|t]; [reflexivity|exfalso]; pose proof (Hp (S t)) as Pt; rewrite D, app_nil_r in Pt.
        assert (In o (of_thread (S t) h)) by (unfold of_thread; change o with (snd (S t, o)); apply in_map, filter_In; split; [exact K|apply Nat.eqb_refl]).
        rewrite Pt in *; contradiction. }
      unfold of_thread; f_equal; clear -A; induction h as [|e h IH]; [reflexivity|]; cbn.
      rewrite (A e) by (left; reflexivity); cbn; f_equal; apply IH; intros x X; apply A; right; exact X. }
    rewrite Q in Ha; split; [exact Ha|rewrite Hl, Ha; reflexivity].
  Qed.

  (** C38: a list obtained from handler.all earlier only grows, and stops growing at the next clean. *)
  Lemma lists_step : forall p0 s h t s', inv p0 s h -> mstep R s t = Some s' -> length (lists R s) <= length (lists R s') /\
    forall a, a < length (lists R s) -> (exists more, nth a (lists R s') [] = nth a (lists R s) [] ++ more) /\
      (all R s <> Some a -> nth a (lists R s') [] = nth a (lists R s) [] /\ all R s' <> Some a).
  Proof.
    intros p0 s h t s' I E; destruct (i_len _ _ _ I) as [L L0]; destruct (i_noinit _ _ _ I t) as [N1 N2]; pose proof (i_init _ _ _ I) as II; clear I; unfold mstep in E.
    assert (SAME : forall x, lists R x = lists R s -> all R x = all R s -> length (lists R s) <= length (lists R x) /\
      forall a, a < length (lists R s) -> (exists more, nth a (lists R x) [] = nth a (lists R s) [] ++ more) /\
      (all R s <> Some a -> nth a (lists R x) [] = nth a (lists R s) [] /\ all R x <> Some a)).
    { intros x A B; rewrite A, B; split; [lia|]; intros a _; split; [exists []; rewrite app_nil_r; reflexivity|auto]. }
    assert (FRESH : forall x, lists R x = lists R s ++ [[]] -> all R x = Some (length (lists R s)) -> length (lists R s) <= length (lists R x) /\
      forall a, a < length (lists R s) -> (exists more, nth a (lists R x) [] = nth a (lists R s) [] ++ more) /\
      (all R s <> Some a -> nth a (lists R x) [] = nth a (lists R s) [] /\ all R x <> Some a)).
    { intros x A B; rewrite A, B, app_length; split; [lia|]; intros a La; rewrite app_nth1 by exact La.
      split; [exists []; rewrite app_nil_r; reflexivity|intros _; split; [reflexivity|intros K; injection K as K; lia]]. }
    destruct (pcs R s t) eqn:P; try contradiction.
    - destruct (progs R s t) as [|[|r|] rest]; [discriminate|injection E as <-; apply SAME; reflexivity|..];
      (destruct (sem R s); [discriminate|injection E as <-; apply SAME; reflexivity]).
    - rewrite L in E; injection E as <-; cbn [lists all go set_lists]; rewrite set_nth_length; split; [lia|].
      intros a La; rewrite set_nth_nth by lia; rewrite L; destruct (Nat.eqb_spec a (length (lists R s) - 1)) as [->|N].
      + split; [exists [r]; reflexivity|congruence].
      + split; [exists []; rewrite app_nil_r; reflexivity|intros K; split; [reflexivity|exact K]].
    - injection E as <-; apply SAME; reflexivity.
    - injection E as <-; apply SAME; reflexivity.
    - injection E as <-; apply FRESH; reflexivity.
    - injection E as <-; apply SAME; reflexivity.
    - injection E as <-; apply SAME; reflexivity.
  Qed.
  Theorem C38_kept_list : forall p0 l l' s s' a, mrun R (mstart R p0) l = Some s -> mrun R s l' = Some s' ->
    a < length (lists R s) ->
    (exists more, nth a (lists R s') [] = nth a (lists R s) [] ++ more) /\
    (all R s <> Some a -> nth a (lists R s') [] = nth a (lists R s) [] /\ all R s' <> Some a).
  Proof.
    intros p0 l l' s s' a E; destruct (inv_run l p0 _ [] s (inv_start p0) E) as (h & I); cbn [app] in I; clear E.
    revert s h I; induction l' as [|t r IH]; intros s h I E La; cbn in E.
    - injection E as <-; split; [exists []; rewrite app_nil_r; reflexivity|auto].
    - destruct (mstep R s t) as [s1|] eqn:E1; [|discriminate].
      destruct (lists_step p0 s h t s1 I E1) as [L1 L2]; destruct (L2 a La) as [(m & M) K].
      destruct (inv_step p0 s h t s1 I E1) as (h1 & I1 & _).
      destruct (IH s1 _ I1 E ltac:(lia)) as [(m' & M') K']; split.
      + exists (m ++ m'); rewrite M', M, <- app_assoc; reflexivity.
      + intros N; destruct (K N) as [Q1 Q2]; destruct (K' Q2) as [Q3 Q4]; split; [congruence|exact Q4].
  Qed.

  (** C38: no deadlock: while some thread has something to do, some thread can go on. *)
  Theorem C38_progress : forall p0 l s, mrun R (mstart R p0) l = Some s -> (exists t, progs R s t <> []) -> exists u, mstep R s u <> None.
  Proof.
    intros p0 l s E (t & Nt); destruct (inv_run l p0 _ [] s (inv_start p0) E) as (h & [Hi Hn Hl Ha Hp Hs Hla]).
    destruct (sem R s) as [u|] eqn:Se.
    - exists u; assert (X : inside (pcs R s u) = true) by (apply Hs; reflexivity).
      unfold mstep; destruct (pcs R s u); try discriminate; destruct Hl as [Hl _]; rewrite Hl; discriminate.
    - exists t; unfold mstep; destruct (pcs R s t) eqn:P.
      + destruct (progs R s t) as [|[|r|] rest]; [contradiction|discriminate|rewrite Se; discriminate|rewrite Se; discriminate].
      + exfalso; now apply (proj1 (Hn t)).
      + exfalso; now apply (proj2 (Hn t)).
      + destruct Hl as [Hl _]; rewrite Hl; discriminate.
      + discriminate.
      + discriminate.
      + discriminate.
      + discriminate.
      + discriminate.
  Qed.
End MemoryProps.

(** The two attributes are not read together: between the two assignments last is not the last element of all. *)
Theorem C38_last_is_last_refuted : exists p0 l s, mrun nat (mstart nat p0) l = Some s /\ seen_all nat s = [5; 6] /\ last nat s = Some 5.
Proof.
  set (p0 := fun t => match t with 0 => [MCall nat 5; MCall _ 6] | _ => [] end); set (l := [0; 0; 0; 0; 0; 0]).
  destruct (mrun nat (mstart nat p0) l) as [s|] eqn:E; [|vm_compute in E; discriminate].
  exists p0, l, s; split; [exact E|]; vm_compute in E; injection E as <-; split; reflexivity.
Qed.
(** Two threads that make the first memory_saver() at the same time: the lock of the constructor is its own, and the second
    one throws away a record of the first. *)
Theorem C38_first_init_race_refuted : exists p0 l s, mrun nat (mstart0 nat p0) l = Some s /\
  (forall t, pcs nat s t = Idle nat /\ progs nat s t = []) /\ p0 0 = [MInit _; MCall _ 5] /\ p0 1 = [MInit _] /\ seen_all nat s = [].
Proof.
  set (p0 := fun t => match t with 0 => [MInit nat; MCall _ 5] | 1 => [MInit _] | _ => [] end).
  set (l := [0; 1; 0; 0; 0; 0; 0; 0; 1; 1]).
  destruct (mrun nat (mstart0 nat p0) l) as [s|] eqn:E; [|vm_compute in E; discriminate].
  exists p0, l, s; split; [exact E|]; vm_compute in E; injection E as <-; split; [|repeat split].
  intros [|[|t]]; split; reflexivity.
Qed.
Example ex_memory : exists s, mrun nat (mstart nat (fun t => match t with 0 => [MCall _ 1; MInit _; MCall _ 2] | 1 => [MClean _; MCall _ 3] | _ => [] end))
    [0; 0; 0; 0; 1; 1; 1; 1; 0; 1; 1; 1; 1; 0; 0; 0; 0] = Some s /\ seen_all nat s = [3; 2] /\ last nat s = Some 2 /\ sem nat s = None.
Proof.
  match goal with |- exists s, ?x = Some s /\ _ => destruct x as [s|] eqn:E; [|vm_compute in E; discriminate] end.
  exists s; split; [reflexivity|]; vm_compute in E; injection E as <-; repeat split.
Qed.

Print Assumptions C38_history.
Print Assumptions C38_one_thread.
Print Assumptions C38_kept_list.
Print Assumptions C38_progress.
