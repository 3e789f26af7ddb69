(** C39 (continued) and C59: no record is refused, nothing stays in the buffer, when a file is rotated by size. *)
From Coq Require Import Lia Setoid.
From Verif Require Import Base File_Model File_Props.
Local Open Scope string_scope.
Local Open Scope list_scope.

Section FilesMore.
  Variable A : Type.
  Notation fev := (fev A).
  Notation fstate := (fstate A).
  Variable c : fconf.

  Ltac same_objs := repeat split.
  Lemma release_all : forall s t, inodes A (release A c s t) = inodes A s /\ dir A (release A c s t) = dir A s /\ obj A (release A c s t) = obj A s /\
    pcs A (release A c s t) = pcs A s /\ rlk A (release A c s t) = rlk A s /\
    flk A (release A c s t) = if f_locked c then upd (flk A s) (f_of c t) None else flk A s.
  Proof. intros s t; unfold release; destruct (f_locked c); repeat split. Qed.
  Lemma acquire_all : forall s t s', acquire A c s t = Some s' -> inodes A s' = inodes A s /\ dir A s' = dir A s /\ obj A s' = obj A s /\
    pcs A s' = pcs A s /\ rlk A s' = rlk A s /\ (if f_locked c then flk A s (f_of c t) = None /\ flk A s' = upd (flk A s) (f_of c t) (Some t) else flk A s' = flk A s).
  Proof.
    intros s t s'; unfold acquire; destruct (f_locked c); [destruct (flk A s (f_of c t)); [discriminate|]|]; intros E; injection E as <-; repeat split.
  Qed.
  Lemma emit_all_all : forall s h, dir A (emit_all A s h) = dir A s /\ pcs A (emit_all A s h) = pcs A s /\ rlk A (emit_all A s h) = rlk A s /\ flk A (emit_all A s h) = flk A s /\
    (forall g, (obj A (emit_all A s h) g = Closed A <-> obj A s g = Closed A) /\ (g <> h -> obj A (emit_all A s h) g = obj A s g)) /\ buffer A (emit_all A s h) h = [].
  Proof.
    intros s h; unfold emit_all, emit; destruct (obj A s h) as [i b|] eqn:O; cbn; (repeat split); try tauto; try (intros N; rewrite upd_other by exact N; reflexivity).
    - destruct (Nat.eq_dec g h) as [->|N]; [rewrite upd_same; discriminate|rewrite upd_other by exact N; tauto].
    - destruct (Nat.eq_dec g h) as [->|N]; [congruence|rewrite upd_other by exact N; tauto].
    - unfold buffer; cbn; rewrite upd_same, skipn_all; reflexivity.
    - unfold buffer; rewrite O; reflexivity.
  Qed.
  Lemma reopen_all : forall s h, pcs A (reopen A c s h) = pcs A s /\ rlk A (reopen A c s h) = rlk A s /\ flk A (reopen A c s h) = flk A s /\
    (forall g, g <> h -> obj A (reopen A c s h) g = obj A s g) /\ exists i, obj A (reopen A c s h) h = Opened A i [].
  Proof.
    intros s h; unfold reopen; destruct (dget _ _ _); cbn; (repeat split); try (intros g N; apply upd_other, N); rewrite upd_same; eauto.
  Qed.
  Lemma move_all : forall s d s', move A c s d = Some s' -> pcs A s' = pcs A s /\ rlk A s' = rlk A s /\ flk A s' = flk A s /\ obj A s' = obj A s.
  Proof.
    intros s d s'; unfold move; destruct (dget _ _ _); [|discriminate]; intros E; injection E as <-; destruct (f_cross c); repeat split.
  Qed.

  (** ** With the thread lock no record is refused *)
  Definition inside (p : fpc A) : bool := match p with Move1 _ _ _ | Move2 _ _ | Move3 _ _ | Write1 _ _ | Flush1 _ => true | _ => false end.
  Definition lock_inv (s : fstate) : Prop := forall t, inside (pcs A s t) = true <-> flk A s (f_of c t) = Some t.
  Definition shut_inv (s : fstate) : Prop := forall h, obj A s h = Closed A -> exists t w, f_of c t = h /\ pcs A s t = Move3 A w.

  Lemma lock_step : forall s x s' e, f_locked c = true -> lock_inv s -> fstep A c s x = Some (s', e) -> lock_inv s'.
  Proof.
    intros s x s' e LK I E; destruct x as [t ch|h n]; cbn [fstep] in E.
    2:{ injection E as <- <-; unfold emit; destruct (obj A s h); exact I. }
    change (forall t, inside (pcs A s t) = true <-> flk A s (f_of c t) = Some t) in I.
    assert (KEEP : forall s1 p, flk A s1 = flk A s -> pcs A s1 = pcs A s -> inside p = inside (pcs A s t) -> lock_inv (go A s1 t p)).
    { intros s1 p E1 E2 E3 u; cbn; rewrite E1, E2; destruct (Nat.eq_dec u t) as [->|N]; [rewrite upd_same, E3|rewrite upd_other by exact N]; apply I. }
    assert (DROP : forall s1 p, flk A s1 = upd (flk A s) (f_of c t) None -> pcs A s1 = pcs A s -> inside (pcs A s t) = true -> inside p = false -> lock_inv (go A s1 t p)).
    { intros s1 p E1 E2 E3 E4 u; cbn; rewrite E1, E2; apply I in E3; destruct (Nat.eq_dec u t) as [->|N].
      - rewrite !upd_same, E4; split; discriminate.
      - rewrite (upd_other _ (pcs A s)) by exact N; rewrite I; destruct (Nat.eq_dec (f_of c u) (f_of c t)) as [Q|Q].
        + rewrite Q, upd_same, E3; split; [intros K; injection K as ->; contradiction|discriminate].
        + rewrite upd_other by exact Q; reflexivity. }
    assert (TAKE : forall s1 p, acquire A c s t = Some s1 -> inside (pcs A s t) = false -> inside p = true -> lock_inv (go A s1 t p)).
    { intros s1 p Q E3 E4; destruct (acquire_all _ _ _ Q) as (_ & _ & _ & E2 & _ & E1); rewrite LK in E1; destruct E1 as [K E1].
      intros u; cbn; rewrite E1, E2; destruct (Nat.eq_dec u t) as [->|N]; [rewrite !upd_same, E4; tauto|].
      rewrite (upd_other _ (pcs A s)) by exact N; rewrite I; destruct (Nat.eq_dec (f_of c u) (f_of c t)) as [Z|Z].
      - rewrite Z, upd_same, K; split; [discriminate|intros X; injection X as ->; contradiction].
      - rewrite upd_other by exact Z; reflexivity. }
    assert (REL : forall s1 p, flk A s1 = flk A s -> pcs A s1 = pcs A s -> inside (pcs A s t) = true -> inside p = false -> lock_inv (go A (release A c s1 t) t p)).
    { intros s1 p E1 E2 E3 E4; destruct (release_all s1 t) as (_ & _ & _ & R1 & _ & R2); rewrite LK in R2; apply DROP; [rewrite R2, E1; reflexivity|congruence|exact E3|exact E4]. }
    assert (RELR : forall s1 p, flk A s1 = flk A s -> pcs A s1 = pcs A s -> inside (pcs A s t) = true -> inside p = false -> lock_inv (go A (set_rlk A (release A c s1 t) (f_of c t) None) t p)).
    { intros s1 p E1 E2 E3 E4; destruct (release_all s1 t) as (_ & _ & _ & R1 & _ & R2); rewrite LK in R2; apply DROP; cbn; [rewrite R2, E1; reflexivity|congruence|exact E3|exact E4]. }
    destruct (pcs A s t) eqn:P.
    - destruct (progs A s t); [discriminate|]; injection E as <- <-; apply KEEP; reflexivity.
    - destruct (rlk A s (f_of c t)) eqn:K; [discriminate|]; injection E as <- <-; apply KEEP; reflexivity.
    - destruct (c_dest ch); injection E as <- <-; apply KEEP; reflexivity.
    - destruct (acquire A c s t) as [s1|] eqn:Q; [|discriminate]; injection E as <- <-; apply TAKE; auto.
    - destruct (if c_move ch then move A c s d else None) as [s1|] eqn:M; injection E as <- <-.
      + destruct (c_move ch); [|discriminate]; destruct (move_all _ _ _ M) as (M1 & _ & M2 & _); apply KEEP; auto.
      + apply RELR; reflexivity.
    - injection E as <- <-; destruct (emit_all_all s (f_of c t)) as (_ & M1 & _ & M2 & _); apply KEEP; cbn; auto.
    - injection E as <- <-; destruct (reopen_all s (f_of c t)) as (M1 & _ & M2 & _); apply RELR; destruct (c_open ch); auto.
    - destruct (acquire A c s t) as [s1|] eqn:Q; [|discriminate]; injection E as <- <-; apply TAKE; auto.
    - destruct (obj A s (f_of c t)) as [i b|]; injection E as <- <-; apply REL; auto; destruct (f_forced c); reflexivity.
    - destruct (acquire A c s t) as [s1|] eqn:Q; [|discriminate]; injection E as <- <-; apply TAKE; auto.
    - injection E as <- <-; destruct (emit_all_all s (f_of c t)) as (_ & M1 & _ & M2 & _); apply REL; auto.
  Qed.

  Lemma shut_step : forall s x s' e, shut_inv s -> (forall t ch, x = Run t ch -> c_open ch = true) -> fstep A c s x = Some (s', e) -> shut_inv s'.
  Proof.
    intros s x s' e I CO E; destruct x as [t ch|h n]; cbn [fstep] in E.
    2:{ injection E as <- <-; intros g; unfold emit; destruct (obj A s h) as [i b|] eqn:O; cbn; [|apply I].
        destruct (Nat.eq_dec g h) as [->|N]; [rewrite upd_same; discriminate|rewrite upd_other by exact N; apply I]. }
    assert (KEEP : forall s1 p, (forall g, obj A s1 g = Closed A -> obj A s g = Closed A) -> pcs A s1 = pcs A s -> (forall w, pcs A s t <> Move3 A w) -> shut_inv (go A s1 t p)).
    { intros s1 p E1 E2 E3 g; cbn; rewrite E2; intros H; destruct (I g (E1 g H)) as (u & w & U1 & U2); exists u, w; split; [exact U1|].
      rewrite upd_other; [exact U2|intros ->; now apply (E3 w)]. }
    assert (ACQ : forall s1 p, acquire A c s t = Some s1 -> (forall w, pcs A s t <> Move3 A w) -> shut_inv (go A s1 t p)).
    { intros s1 p Q X; destruct (acquire_all _ _ _ Q) as (_ & _ & E1 & E2 & _); apply KEEP; [rewrite E1; auto|exact E2|exact X]. }
    destruct (pcs A s t) eqn:P.
    - destruct (progs A s t); [discriminate|]; injection E as <- <-; apply KEEP; auto; discriminate.
    - destruct (rlk A s (f_of c t)) eqn:K; [discriminate|]; injection E as <- <-; apply KEEP; auto; discriminate.
    - destruct (c_dest ch); injection E as <- <-; apply KEEP; auto; discriminate.
    - destruct (acquire A c s t) as [s1|] eqn:Q; [|discriminate]; injection E as <- <-; apply ACQ; auto; discriminate.
    - destruct (if c_move ch then move A c s d else None) as [s1|] eqn:M; injection E as <- <-.
      + destruct (c_move ch); [|discriminate]; destruct (move_all _ _ _ M) as (M1 & _ & _ & M2); apply KEEP; [rewrite M2; auto|exact M1|discriminate].
      + destruct (release_all s t) as (_ & _ & R1 & R2 & _); apply KEEP; cbn; [rewrite R1; auto|exact R2|discriminate].
    - injection E as <- <-; intros g; cbn; destruct (emit_all_all s (f_of c t)) as (_ & M1 & _ & _ & M2 & _); rewrite M1.
      destruct (Nat.eq_dec g (f_of c t)) as [->|N]; [intros _; exists t, s0; rewrite upd_same; auto|rewrite upd_other by exact N].
      intros H; apply (proj1 (M2 g)) in H; destruct (I g H) as (u & w & U1 & U2); exists u, w; split; [exact U1|].
      rewrite upd_other; [exact U2|congruence].
    - injection E as <- <-; rewrite (CO t ch eq_refl); destruct (reopen_all s (f_of c t)) as (M1 & _ & _ & M2 & i & M3).
      destruct (release_all (reopen A c s (f_of c t)) t) as (_ & _ & R1 & R2 & _).
      intros g; cbn; rewrite R1, R2, M1; destruct (Nat.eq_dec g (f_of c t)) as [->|N]; [rewrite M3; discriminate|rewrite M2 by exact N].
      intros H; destruct (I g H) as (u & w & U1 & U2); exists u, w; split; [exact U1|]; rewrite upd_other; [exact U2|congruence].
    - destruct (acquire A c s t) as [s1|] eqn:Q; [|discriminate]; injection E as <- <-; apply ACQ; auto; discriminate.
    - destruct (obj A s (f_of c t)) as [i b|] eqn:O; injection E as <- <-; match goal with |- context [release A c ?z t] => destruct (release_all z t) as (_ & _ & R1 & R2 & _) end;
      (apply KEEP; [rewrite R1; cbn; auto|exact R2|discriminate]).
      intros g; destruct (Nat.eq_dec g (f_of c t)) as [->|N]; [rewrite upd_same; discriminate|rewrite upd_other by exact N; auto].
    - destruct (acquire A c s t) as [s1|] eqn:Q; [|discriminate]; injection E as <- <-; apply ACQ; auto; discriminate.
    - injection E as <- <-; destruct (release_all (emit_all A s (f_of c t)) t) as (_ & _ & R1 & R2 & _); destruct (emit_all_all s (f_of c t)) as (_ & M1 & _ & _ & M2 & _).
      apply KEEP; [rewrite R1; intros g; apply M2|congruence|discriminate].
  Qed.

  Definition rejects (ev : list fev) : Prop := exists h w, In (ERejected A h w) ev.
  Lemma reject_step : forall s x s' e, f_locked c = true -> lock_inv s -> shut_inv s -> fstep A c s x = Some (s', e) -> ~ rejects e.
  Proof.
    intros s x s' e LK I S E (h & w & R); destruct x as [t ch|g n]; cbn [fstep] in E; [|injection E as <- <-; destruct R].
    destruct (pcs A s t) eqn:P.
    - destruct (progs A s t); [discriminate|]; injection E as <- <-; destruct R.
    - destruct (rlk A s (f_of c t)) eqn:K; [discriminate|]; injection E as <- <-; destruct R.
    - destruct (c_dest ch); injection E as <- <-; destruct R as [R|[]]; discriminate.
    - destruct (acquire A c s t) as [s1|] eqn:Q; [|discriminate]; injection E as <- <-; destruct R.
    - destruct (if c_move ch then move A c s d else None) as [s1|] eqn:M; injection E as <- <-; [destruct R as [R|[]]; discriminate|destruct R].
    - injection E as <- <-; destruct R.
    - injection E as <- <-; destruct R.
    - destruct (acquire A c s t) as [s1|] eqn:Q; [|discriminate]; injection E as <- <-; destruct R.
    - destruct (obj A s (f_of c t)) as [i b|] eqn:O; injection E as <- <-; [destruct R as [R|[]]; discriminate|].
      destruct (S _ O) as (u & w0 & U1 & U2).
      assert (X : flk A s (f_of c t) = Some t) by (apply I; rewrite P; reflexivity).
      assert (Y : flk A s (f_of c u) = Some u) by (apply I; rewrite U2; reflexivity).
      assert (u = t) by congruence; subst u; congruence.
    - destruct (acquire A c s t) as [s1|] eqn:Q; [|discriminate]; injection E as <- <-; destruct R.
    - injection E as <- <-; destruct R.
  Qed.

  Variable others : list (string * list A).
  Variable old : list A.

  (** C39: with the thread lock on, and if the file can always be opened again, every record is written: no interleaving lets a
      thread find the file closed. *)
  Theorem C39_every_record_accepted : f_locked c = true -> forall p0 l s ev,
    (forall t ch, In (Run t ch) l -> c_open ch = true) ->
    frun A c (fstart A c others old p0) l = Some (s, ev) -> forall h w, ~ In (ERejected A h w) ev.
  Proof.
    intros LK p0 l s ev CO E h w K.
    assert (G : forall l s0 s ev, lock_inv s0 -> shut_inv s0 -> (forall t ch, In (Run t ch) l -> c_open ch = true) -> frun A c s0 l = Some (s, ev) -> ~ rejects ev).
    { clear -LK; induction l as [|x l IH]; intros s0 s ev I S CO E; cbn in E.
      - injection E as <- <-; intros (? & ? & []).
      - destruct (fstep A c s0 x) as [[s1 e1]|] eqn:E1; [|discriminate]; destruct (frun A c s1 l) as [[s2 e2]|] eqn:E2; [|discriminate].
        injection E as <- <-; intros (h & w & K); apply in_app_or in K; destruct K as [K|K].
        + apply (reject_step s0 x s1 e1 LK I S E1); exists h, w; exact K.
        + apply (IH s1 s2 e2); [eapply lock_step; eauto|eapply shut_step; [exact S| |exact E1]|intros t ch T; apply (CO t); right; exact T|exact E2|exists h, w; exact K].
          intros t ch ->; apply (CO t); left; reflexivity. }
    apply (G l (fstart A c others old p0) s ev); [intros t; cbn; split; discriminate|intros g; cbn; discriminate|exact CO|exact E|exists h, w; exact K].
  Qed.

  (** ** With forced_flush nothing stays behind *)
  Definition flush_inv (s : fstate) : Prop := forall h, buffer A s h <> [] -> exists t, f_of c t = h /\ (pcs A s t = Flush0 A \/ pcs A s t = Flush1 A).
  Lemma flush_step : forall s x s' e, f_forced c = true -> flush_inv s -> fstep A c s x = Some (s', e) -> flush_inv s'.
  Proof.
    intros s x s' e FF I E; destruct x as [t ch|h n]; cbn [fstep] in E.
    2:{ injection E as <- <-; intros g B.
        assert (B' : buffer A s g <> []).
        { intros Z; apply B; revert Z; unfold buffer, emit; destruct (obj A s h) as [i b|] eqn:O; cbn; [|auto].
          destruct (Nat.eq_dec g h) as [->|N]; [rewrite upd_same, O; intros ->; apply skipn_nil|rewrite upd_other by exact N; auto]. }
        destruct (I g B') as (t & T1 & T2); exists t; split; [exact T1|]; unfold emit; destruct (obj A s h); exact T2. }
    assert (KEEP : forall s1 p, (forall g, buffer A s1 g = buffer A s g) -> pcs A s1 = pcs A s -> (pcs A s t = Flush0 A \/ pcs A s t = Flush1 A -> p = Flush0 A \/ p = Flush1 A) -> flush_inv (go A s1 t p)).
    { intros s1 p E1 E2 E3 g B; change (buffer A (go A s1 t p) g) with (buffer A s1 g) in B; rewrite E1 in B; destruct (I g B) as (u & U1 & U2); exists u; split; [exact U1|].
      cbn; rewrite E2; destruct (Nat.eq_dec u t) as [->|N]; [rewrite upd_same; apply E3, U2|rewrite upd_other by exact N; exact U2]. }
    assert (BUF : forall s1 g, obj A s1 = obj A s -> buffer A s1 g = buffer A s g) by (intros s1 g Q; unfold buffer; rewrite Q; reflexivity).
    assert (NF : forall p, p <> Flush0 A -> p <> Flush1 A -> pcs A s t = p -> forall X : Prop, pcs A s t = Flush0 A \/ pcs A s t = Flush1 A -> X) by (intros p N1 N2 -> X [|]; contradiction).
    destruct (pcs A s t) eqn:P.
    - destruct (progs A s t); [discriminate|]; injection E as <- <-; apply KEEP; [reflexivity|reflexivity|intros [|]; discriminate].
    - destruct (rlk A s (f_of c t)) eqn:K; [discriminate|]; injection E as <- <-; apply KEEP; [reflexivity|reflexivity|intros [|]; discriminate].
    - destruct (c_dest ch); injection E as <- <-; (apply KEEP; [reflexivity|reflexivity|intros [|]; discriminate]).
    - destruct (acquire A c s t) as [s1|] eqn:Q; [|discriminate]; injection E as <- <-; destruct (acquire_all _ _ _ Q) as (_ & _ & E1 & E2 & _).
      apply KEEP; [intros g; apply BUF, E1|exact E2|intros [|]; discriminate].
    - destruct (if c_move ch then move A c s d else None) as [s1|] eqn:M; injection E as <- <-.
      + destruct (c_move ch); [|discriminate]; destruct (move_all _ _ _ M) as (M1 & _ & _ & M2); apply KEEP; [intros g; apply BUF, M2|exact M1|intros [|]; discriminate].
      + destruct (release_all s t) as (_ & _ & R1 & R2 & _); apply KEEP; [intros g; apply BUF; exact R1|exact R2|intros [|]; discriminate].
    - injection E as <- <-; destruct (emit_all_all s (f_of c t)) as (_ & M1 & _ & _ & M2 & _); intros g; unfold buffer at 1; cbn; rewrite M1.
      destruct (Nat.eq_dec g (f_of c t)) as [->|N]; [rewrite upd_same; congruence|rewrite upd_other by exact N].
      rewrite (proj2 (M2 g) N); intros B; destruct (I g B) as (u & U1 & U2); exists u; split; [exact U1|]; rewrite upd_other; [exact U2|congruence].
    - injection E as <- <-; destruct (reopen_all s (f_of c t)) as (M1 & _ & _ & M2 & i & M3).
      destruct (release_all (if c_open ch then reopen A c s (f_of c t) else s) t) as (_ & _ & R1 & R2 & _).
      intros g; unfold buffer at 1; cbn; rewrite R1, R2; intros B.
      assert (B' : buffer A s g <> []).
      { destruct (c_open ch); [|exact B]; destruct (Nat.eq_dec g (f_of c t)) as [->|N]; [rewrite M3 in B; contradiction|rewrite M2 in B by exact N; exact B]. }
      destruct (I g B') as (u & U1 & U2); exists u; split; [exact U1|]; assert (u <> t) by (intros ->; rewrite P in U2; destruct U2; discriminate).
      rewrite upd_other by assumption; destruct (c_open ch); [rewrite M1|]; exact U2.
    - destruct (acquire A c s t) as [s1|] eqn:Q; [|discriminate]; injection E as <- <-; destruct (acquire_all _ _ _ Q) as (_ & _ & E1 & E2 & _).
      apply KEEP; [intros g; apply BUF, E1|exact E2|intros [|]; discriminate].
    - destruct (obj A s (f_of c t)) as [i b|] eqn:O; injection E as <- <-.
      + match goal with |- context [release A c ?z t] => destruct (release_all z t) as (_ & _ & R1 & R2 & _) end; rewrite FF.
        intros g; unfold buffer at 1; cbn [obj go pcs]; rewrite R1, R2; cbn; destruct (Nat.eq_dec g (f_of c t)) as [->|N]; [intros _; exists t; rewrite upd_same; auto|].
        rewrite upd_other by exact N; intros B; destruct (I g B) as (u & U1 & U2); exists u; split; [exact U1|]; rewrite upd_other; [exact U2|congruence].
      + destruct (release_all s t) as (_ & _ & R1 & R2 & _); apply KEEP; [intros g; apply BUF; exact R1|exact R2|intros [|]; discriminate].
    - destruct (acquire A c s t) as [s1|] eqn:Q; [|discriminate]; injection E as <- <-; destruct (acquire_all _ _ _ Q) as (_ & _ & E1 & E2 & _).
      apply KEEP; [intros g; apply BUF, E1|exact E2|auto].
    - injection E as <- <-; destruct (release_all (emit_all A s (f_of c t)) t) as (_ & _ & R1 & R2 & _); destruct (emit_all_all s (f_of c t)) as (_ & M1 & _ & _ & M2 & M3).
      intros g; unfold buffer at 1; cbn; rewrite R1, R2, M1; destruct (Nat.eq_dec g (f_of c t)) as [->|N].
      + unfold buffer in M3; rewrite M3; congruence.
      + rewrite (proj2 (M2 g) N); intros B; destruct (I g B) as (u & U1 & U2); exists u; split; [exact U1|]; rewrite upd_other; [exact U2|congruence].
  Qed.

  (** C39: with forced_flush, when no thread is in the middle of a record nothing is left in any buffer. *)
  Theorem C39_flushed : f_forced c = true -> forall p0 l s ev, frun A c (fstart A c others old p0) l = Some (s, ev) ->
    (forall t, pcs A s t = Idle A) -> forall h, buffer A s h = [].
  Proof.
    intros FF p0 l s ev E D h.
    assert (G : forall l s0 s ev, flush_inv s0 -> frun A c s0 l = Some (s, ev) -> flush_inv s).
    { clear -FF; induction l as [|x l IH]; intros s0 s ev I E; cbn in E; [injection E as <- <-; exact I|].
      destruct (fstep A c s0 x) as [[s1 e1]|] eqn:E1; [|discriminate]; destruct (frun A c s1 l) as [[s2 e2]|] eqn:E2; [|discriminate].
      injection E as <- <-; eapply IH; [eapply flush_step; eauto|exact E2]. }
    assert (F : flush_inv s) by (apply (G l (fstart A c others old p0) s ev); [intros g B; exfalso; apply B; reflexivity|exact E]).
    destruct (buffer A s h) eqn:B; [reflexivity|exfalso].
    destruct (F h) as (t & T1 & T2); [congruence|rewrite D in T2; destruct T2; discriminate].
  Qed.
End FilesMore.
