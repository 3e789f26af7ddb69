(** C59: when a file is moved by a rule about its size. *)
From Coq Require Import Lia Setoid.
From Verif Require Import Base File_Model File_Props File_More.
Local Open Scope string_scope.
Local Open Scope list_scope.

Section FilesSize.
  Variable A : Type.
  Notation fev := (fev A).
  Notation fstate := (fstate A).
  Variable c : fconf.
  Variable limit : nat.

  Lemma append_to_grows : forall l i x j, length (nth j l []) <= length (nth j (append_to A l i x) []).
  Proof.
    induction l as [|y l IH]; intros i x j; [destruct i; apply le_n|].
    destruct i; cbn; destruct j; try apply le_n; [rewrite app_length; lia|apply IH].
  Qed.
  (** At least [limit] units in the file of the name. *)
  Definition full (s : fstate) : Prop := exists n, size A c s = Some n /\ limit <= n.
  Lemma full_same : forall s s', inodes A s' = inodes A s -> dir A s' = dir A s -> full s -> full s'.
  Proof. intros s s' E1 E2 (n & N1 & N2); exists n; split; [unfold size in *; rewrite E1, E2; exact N1|exact N2]. Qed.
  Lemma full_emit : forall s h n, full s -> full (emit A s h n).
  Proof.
    intros s h n (m & M1 & M2); unfold full, size, emit in *; destruct (obj A s h) as [i b|] eqn:O; cbn; [|exists m; auto].
    destruct (dget _ _ _) as [j|]; [|discriminate]; injection M1 as <-; eexists; split; [reflexivity|].
    eapply Nat.le_trans; [exact M2|apply append_to_grows].
  Qed.
  Lemma full_emit_all : forall s h, full s -> full (emit_all A s h).
  Proof. intros s h F; unfold emit_all; destruct (obj A s h); [apply full_emit|]; exact F. Qed.

  Definition full_inv (s : fstate) : Prop := forall t w d, pcs A s t = Move0 A w d \/ pcs A s t = Move1 A w d -> full s.
  (** The decisions follow the rule: a file is moved only if it was seen with [limit] units or more. *)
  Definition by_rule (ev : list fev) : Prop := forall h sz, In (EChecked A h sz true) ev -> exists n, sz = Some n /\ limit <= n.

  Lemma full_step : forall g s x s' e, (forall t, f_of c t = g) -> rot_inv A c s -> full_inv s -> by_rule e -> fstep A c s x = Some (s', e) ->
    full_inv s' /\ (forall h d n, In (EMoved A h d n) e -> limit <= n).
  Proof.
    intros g s x s' e O R I BR E; destruct x as [t ch|h n]; cbn [fstep] in E.
    2:{ injection E as <- <-; split; [|intros ? ? ? []].
        intros t w d P; apply full_emit, (I t w d); unfold emit in P; destruct (obj A s h); exact P. }
    change (forall t, rotating A (pcs A s t) = true <-> rlk A s (f_of c t) = Some t) in R.
    assert (ONE : rotating A (pcs A s t) = true -> forall u, u <> t -> rotating A (pcs A s u) = false).
    { intros K u N; destruct (rotating A (pcs A s u)) eqn:Q; [|reflexivity]; apply R in K; apply R in Q; rewrite O in *; congruence. }
    assert (KEEP : forall s1 p, pcs A s1 = pcs A s -> (full s -> full s1) -> (forall w d, p <> Move0 A w d /\ p <> Move1 A w d) -> full_inv (go A s1 t p)).
    { intros s1 p E1 E2 E3 u w d; cbn; rewrite E1; destruct (Nat.eq_dec u t) as [->|N].
      - rewrite upd_same; intros [Q|Q]; exfalso; [apply (proj1 (E3 w d)), Q|apply (proj2 (E3 w d)), Q].
      - rewrite upd_other by exact N; intros Q; apply E2, (I u w d), Q. }
    assert (MINE : forall s1 p, pcs A s1 = pcs A s -> rotating A (pcs A s t) = true -> (forall w d, p <> Move0 A w d /\ p <> Move1 A w d) -> full_inv (go A s1 t p)).
    { intros s1 p E1 E2 E3 u w d; cbn; rewrite E1; destruct (Nat.eq_dec u t) as [->|N].
      - rewrite upd_same; intros [Q|Q]; exfalso; [apply (proj1 (E3 w d)), Q|apply (proj2 (E3 w d)), Q].
      - rewrite upd_other by exact N; intros Q; exfalso; specialize (ONE E2 u N); destruct Q as [Q|Q]; rewrite Q in ONE; discriminate. }
    assert (NM : forall p : fpc A, (forall w d, p <> Move0 A w d /\ p <> Move1 A w d) -> forall h d n, In (EMoved A h d n) [] -> limit <= n) by (intros ? ? ? ? ? []).
    destruct (pcs A s t) eqn:P.
    - destruct (progs A s t); [discriminate|]; injection E as <- <-; split; [apply KEEP; [reflexivity|auto|split; discriminate]|intros ? ? ? []].
    - destruct (rlk A s (f_of c t)) eqn:K; [discriminate|]; injection E as <- <-; split; [apply KEEP; [reflexivity|auto|split; discriminate]|intros ? ? ? []].
    - destruct (c_dest ch) as [d|]; injection E as <- <-; (split; [|intros ? ? ? [Q|[]]; discriminate]).
      + intros u w0 d0; cbn; destruct (Nat.eq_dec u t) as [->|N].
        * intros _; destruct (BR (f_of c t) (size A c s)) as (n & N1 & N2); [left; reflexivity|exists n; split; [exact N1|exact N2]].
        * rewrite upd_other by exact N; intros Q; apply (I u w0 d0 Q).
      + apply KEEP; [reflexivity|auto|split; discriminate].
    - destruct (acquire A c s t) as [s1|] eqn:Q; [|discriminate]; injection E as <- <-; split; [|intros ? ? ? []].
      destruct (acquire_all A c _ _ _ Q) as (E1 & E2 & E3 & E4 & _).
      assert (F : full s) by (eapply I; left; exact P).
      intros u w0 d0 _; apply (full_same s); [exact E1|exact E2|exact F].
    - assert (F : full s) by (eapply I; right; exact P).
      destruct (if c_move ch then move A c s d else None) as [s1|] eqn:M; injection E as <- <-.
      + destruct (c_move ch); [|discriminate]; destruct (move_all A c _ _ _ M) as (M1 & _); split; [apply MINE; [exact M1|reflexivity|split; discriminate]|].
        intros h d0 n [Q|[]]; injection Q as <- <- <-; destruct F as (n & -> & N); exact N.
      + split; [|intros ? ? ? []]; destruct (release_all A c s t) as (_ & _ & _ & R2 & _); apply MINE; [exact R2|reflexivity|split; discriminate].
    - injection E as <- <-; split; [|intros ? ? ? []]; destruct (emit_all_all A s (f_of c t)) as (_ & M1 & _); apply MINE; [exact M1|reflexivity|split; discriminate].
    - injection E as <- <-; split; [|intros ? ? ? []]; destruct (reopen_all A c s (f_of c t)) as (M1 & _).
      destruct (release_all A c (if c_open ch then reopen A c s (f_of c t) else s) t) as (_ & _ & _ & R2 & _).
      apply MINE; [cbn; rewrite R2; destruct (c_open ch); [exact M1|reflexivity]|reflexivity|split; discriminate].
    - destruct (acquire A c s t) as [s1|] eqn:Q; [|discriminate]; injection E as <- <-; split; [|intros ? ? ? []].
      destruct (acquire_all A c _ _ _ Q) as (E1 & E2 & E3 & E4 & _); apply KEEP; [exact E4|apply full_same; assumption|split; discriminate].
    - destruct (obj A s (f_of c t)) as [i b|]; injection E as <- <-; (split; [|intros ? ? ? [Q|[]]; discriminate]);
        match goal with |- context [release A c ?z t] => destruct (release_all A c z t) as (R1 & R2 & _ & R4 & _) end;
        (apply KEEP; [exact R4|apply full_same; assumption|destruct (f_forced c); split; discriminate]).
    - destruct (acquire A c s t) as [s1|] eqn:Q; [|discriminate]; injection E as <- <-; split; [|intros ? ? ? []].
      destruct (acquire_all A c _ _ _ Q) as (E1 & E2 & E3 & E4 & _); apply KEEP; [exact E4|apply full_same; assumption|split; discriminate].
    - injection E as <- <-; split; [|intros ? ? ? []]; destruct (release_all A c (emit_all A s (f_of c t)) t) as (R1 & R2 & _ & R4 & _); destruct (emit_all_all A s (f_of c t)) as (_ & M1 & _).
      apply KEEP; [congruence|intros F; apply (full_same (emit_all A s (f_of c t))); [exact R1|exact R2|apply full_emit_all, F]|split; discriminate].
  Qed.

  Variable others : list (string * list A).
  Variable old : list A.

  (** C59: all threads use one handler and the decision is taken by the size: then no file is ever moved that is smaller than
      the limit, whatever the interleaving (the check and the move are one section of the lock of the rotator). *)
  Theorem C59_no_small_file_moved : forall g p0 l s ev, (forall t, f_of c t = g) ->
    frun A c (fstart A c others old p0) l = Some (s, ev) -> by_rule ev -> forall h d n, In (EMoved A h d n) ev -> limit <= n.
  Proof.
    intros g p0 l s ev O E BR.
    assert (G : forall l s0 s ev, rot_inv A c s0 -> full_inv s0 -> by_rule ev -> frun A c s0 l = Some (s, ev) -> forall h d n, In (EMoved A h d n) ev -> limit <= n).
    { clear -O; induction l as [|x l IH]; intros s0 s ev R I BR E h d n K; cbn in E; [injection E as <- <-; destruct K|].
      destruct (fstep A c s0 x) as [[s1 e1]|] eqn:E1; [|discriminate]; destruct (frun A c s1 l) as [[s2 e2]|] eqn:E2; [|discriminate].
      injection E as <- <-.
      destruct (full_step g s0 x s1 e1 O R I) as [F1 F2]; [intros h0 sz Q; apply (BR h0), in_or_app; left; exact Q|exact E1|].
      apply in_app_or in K; destruct K as [K|K]; [apply (F2 h d n K)|].
      apply (IH s1 s2 e2) with (h := h) (d := d); [eapply rot_inv_step; eassumption|exact F1|intros h0 sz Q; apply (BR h0), in_or_app; right; exact Q|exact E2|exact K]. }
    apply (G l (fstart A c others old p0) s ev); [intros t; cbn; split; discriminate|intros t w d; cbn; intros [|]; discriminate|exact BR|exact E].
  Qed.

  (** ** One thread, forced_flush: the file never exceeds the limit by more than the last record *)
  Definition exact_rule (ev : list fev) : Prop :=
    forall h sz b, In (EChecked A h sz b) ev -> b = match sz with Some n => Nat.leb limit n | None => false end.
  Fixpoint last_len (ev : list fev) : option nat :=
    match ev with [] => None | e :: r => match last_len r with Some n => Some n | None => match e with EAccepted _ _ w => Some (length w) | _ => None end end end.
  Lemma last_len_app : forall a b, last_len (a ++ b) = match last_len b with Some n => Some n | None => last_len a end.
  Proof. induction a as [|e a IH]; intros b; cbn; [destruct (last_len b); reflexivity|rewrite IH; destruct (last_len b); reflexivity]. Qed.
  Definition below (n : nat) (m : option nat) : Prop := match m with Some k => n < limit + k | None => True end.

  (** The object of handler [h] is open on the file of the name; [P] of the size of the file and the buffer. *)
  Definition linked (h : nat) (s : fstate) (P : nat -> list A -> Prop) : Prop :=
    exists i b, obj A s h = Opened A i b /\ dget String.eqb (dir A s) (f_name c) = Some i /\ i < length (inodes A s) /\ P (length (nth i (inodes A s) [])) b.
  Definition at_pc (h : nat) (s : fstate) (p : fpc A) (ev : list fev) : Prop :=
    match p with
    | Idle _ | Rot _ _ | Check _ _ | Move0 _ _ _ | Move1 _ _ _ => linked h s (fun n b => b = [] /\ below n (last_len ev))
    | Move2 _ _ => buffer A s h = [] /\ dget String.eqb (dir A s) (f_name c) = None
    | Move3 _ _ => obj A s h = Closed A /\ dget String.eqb (dir A s) (f_name c) = None
    | Write0 _ _ | Write1 _ _ => linked h s (fun n b => b = [] /\ n < limit)
    | Flush0 _ | Flush1 _ => linked h s (fun n b => below (n + length b) (last_len ev))
    end.
  Definition frame (t : nat) (s : fstate) : Prop :=
    (forall u, u <> t -> pcs A s u = Idle A) /\ (forall u, u <> t -> progs A s u = []) /\
    (forall g, g <> f_of c t -> buffer A s g = []) /\ NoDup (map fst (dir A s)).
  (** The shape of a state of a single thread [t]. *)
  Definition shape (t : nat) (s : fstate) (ev : list fev) : Prop := frame t s /\ at_pc (f_of c t) s (pcs A s t) ev.

  Lemma linked_imp : forall h s (P P' : nat -> list A -> Prop), (forall n b, P n b -> P' n b) -> linked h s P -> linked h s P'.
  Proof. intros h s P P' H (i & b & O & D & L & Q); exists i, b; auto. Qed.
  Lemma linked_same : forall h s s' P, inodes A s' = inodes A s -> dir A s' = dir A s -> obj A s' = obj A s -> linked h s P -> linked h s' P.
  Proof. intros h s s' P E1 E2 E3; unfold linked; rewrite E1, E2, E3; auto. Qed.
  Lemma linked_emit : forall h s n (P P' : nat -> list A -> Prop),
    (forall m b m', m' + length (skipn n b) = m + length b -> (b = [] -> m' = m) -> P m b -> P' m' (skipn n b)) ->
    linked h s P -> linked h (emit A s h n) P'.
  Proof.
    intros h s n P P' H (i & b & O & D & L & Q); unfold linked, emit; rewrite O; cbn; exists i, (skipn n b); rewrite upd_same.
    split; [reflexivity|]; split; [exact D|]; split; [rewrite append_to_length; exact L|].
    assert (Z : length (nth i (append_to A (inodes A s) i (map (fun x => (Some h, x)) (firstn n b))) []) = length (nth i (inodes A s) []) + length (firstn n b)).
    { pose proof (append_to_nth A (inodes A s) i (map (fun x => (Some h, x)) (firstn n b)) i L) as Z; rewrite Nat.eqb_refl in Z.
      etransitivity; [exact (f_equal (@length _) Z)|rewrite app_length, map_length; reflexivity]. }
    apply (H (length (nth i (inodes A s) [])) b); [|intros ->|exact Q].
    - etransitivity; [exact (f_equal (fun x => x + length (skipn n b)) Z)|rewrite firstn_length, skipn_length; lia].
    - etransitivity; [exact Z|rewrite firstn_nil; cbn; lia].
  Qed.
  (** A buffer without text gives nothing. *)
  Lemma emit_nothing : forall s h n, buffer A s h = [] -> dir A (emit A s h n) = dir A s /\ (forall g, obj A (emit A s h n) g = obj A s g) /\
    inodes A (emit A s h n) = inodes A s.
  Proof.
    intros s h n B; unfold emit, buffer in *; destruct (obj A s h) as [i b|] eqn:O; cbn; [subst b|auto].
    rewrite firstn_nil, skipn_nil; cbn; split; [reflexivity|]; split.
    - intros g; destruct (Nat.eq_dec g h) as [->|N]; [rewrite upd_same; congruence|apply upd_other, N].
    - clear; revert i; induction (inodes A s) as [|x l IH]; intros [|i]; cbn; try reflexivity; [rewrite app_nil_r; reflexivity|rewrite IH; reflexivity].
  Qed.
  Lemma emit_pcs : forall s h n, pcs A (emit A s h n) = pcs A s /\ progs A (emit A s h n) = progs A s.
  Proof. intros s h n; unfold emit; destruct (obj A s h); split; reflexivity. Qed.
  Lemma emit_all_is : forall s h, exists n, emit_all A s h = emit A s h n.
  Proof. intros s h; unfold emit_all; destruct (obj A s h) eqn:O; [eauto|exists 0; unfold emit; rewrite O; reflexivity]. Qed.
  Lemma emit_frame : forall t s h n, frame t s -> frame t (emit A s h n).
  Proof.
    intros t s h n (S1 & S2 & S3 & S4); destruct (emit_pcs s h n) as [P1 P2]; unfold frame; rewrite P1, P2.
    split; [exact S1|]; split; [exact S2|]; split.
    - intros g N; specialize (S3 g N); unfold buffer, emit in *; destruct (obj A s h) as [i b|] eqn:O; cbn; [|exact S3].
      destruct (Nat.eq_dec g h) as [->|N']; [rewrite upd_same; rewrite O in S3; subst b; apply skipn_nil|rewrite upd_other by exact N'; exact S3].
    - unfold emit; destruct (obj A s h); exact S4.
  Qed.

  Lemma at_pc_emit : forall s h n p ev, at_pc h s p ev -> at_pc h (emit A s h n) p ev.
  Proof.
    intros s h n p ev S5; destruct p; cbn in *;
      try (eapply linked_emit; [|exact S5]; intros m b m' E1 E2; first [intros [-> B]; rewrite (E2 eq_refl); split; [apply skipn_nil|exact B]|rewrite E1; intros B; exact B]).
    - destruct S5 as [B D]; destruct (emit_nothing s h n B) as (Z1 & Z2 & _); rewrite Z1; split; [unfold buffer; rewrite Z2; exact B|exact D].
    - destruct S5 as [B D]; unfold emit; rewrite B; auto.
  Qed.
  Lemma at_pc_same : forall h s s' p ev, inodes A s' = inodes A s -> dir A s' = dir A s -> obj A s' h = obj A s h -> at_pc h s p ev -> at_pc h s' p ev.
  Proof. intros h s s' p ev E1 E2 E3; unfold at_pc, linked, buffer; rewrite E1, E2, E3; auto. Qed.
  Lemma frame_same : forall t s s', dir A s' = dir A s -> obj A s' = obj A s -> pcs A s' = pcs A s -> progs A s' = progs A s -> frame t s -> frame t s'.
  Proof. intros t s s' E1 E2 E3 E4; unfold frame, buffer; rewrite E1, E2, E3, E4; auto. Qed.
  Lemma shape_emit : forall t s ev h n, shape t s ev -> shape t (emit A s h n) ev.
  Proof.
    intros t s ev h n [F P]; split; [apply emit_frame, F|]; rewrite (proj1 (emit_pcs s h n)); destruct (Nat.eq_dec h (f_of c t)) as [->|N]; [apply at_pc_emit, P|].
    destruct F as (_ & _ & F & _); destruct (emit_nothing s h n (F h N)) as (Z1 & Z2 & Z3); apply (at_pc_same _ s); auto.
  Qed.
  Lemma shape_go : forall t s p ev, frame t s -> at_pc (f_of c t) s p ev -> shape t (go A s t p) ev.
  Proof.
    intros t s p ev (F1 & F2 & F3 & F4) P; split.
    - split; [intros u N; cbn; rewrite upd_other by exact N; apply F1, N|]; split; [exact F2|]; split; [exact F3|exact F4].
    - cbn [go pcs]; rewrite upd_same; apply (at_pc_same _ s); auto.
  Qed.
  Lemma at_pc_ev : forall h s p ev e, last_len e = None -> at_pc h s p ev -> at_pc h s p (ev ++ e).
  Proof. intros h s p ev e N; unfold at_pc; destruct p; rewrite ?last_len_app, ?N; auto. Qed.
  Lemma acquire_progs : forall s t s', acquire A c s t = Some s' -> progs A s' = progs A s.
  Proof. intros s t s'; unfold acquire; destruct (f_locked c); [destruct (flk A s (f_of c t)); [discriminate|]|]; intros E; injection E as <-; reflexivity. Qed.
  Lemma release_progs : forall s t, progs A (release A c s t) = progs A s.
  Proof. intros s t; unfold release; destruct (f_locked c); reflexivity. Qed.

  (** All moves and openings succeed. *)
  Definition no_fault (l : list sched) : Prop := forall t ch, In (Run t ch) l -> c_move ch = true /\ c_open ch = true.
  (** No file is moved to the name of the log file itself. *)
  Definition other_names (ev : list fev) : Prop := forall h d n, In (EMoved A h d n) ev -> d <> f_name c.

  Lemma shape_step : forall t s x s' ev e, f_forced c = true -> 0 < limit -> shape t s ev -> exact_rule e -> other_names e -> no_fault [x] ->
    fstep A c s x = Some (s', e) -> shape t s' (ev ++ e) /\ (forall h d n, In (EMoved A h d n) e -> below n (last_len ev)).
  Proof.
    intros t s x s' ev e FF LP [F P] BR ON NF E; destruct x as [u ch|h n]; cbn [fstep] in E.
    2:{ injection E as <- <-; rewrite app_nil_r; split; [apply shape_emit; split; assumption|intros ? ? ? []]. }
    assert (UT : u = t).
    { destruct (Nat.eq_dec u t) as [H|H]; [exact H|exfalso]; destruct F as (F1 & F2 & _); rewrite (F1 u H), (F2 u H) in E; discriminate. }
    subst u; destruct (NF t ch (or_introl eq_refl)) as [CM CO]; rewrite CM, CO in E.
    assert (ACQ : forall s1 p, acquire A c s t = Some s1 -> at_pc (f_of c t) s p ev -> shape t (go A s1 t p) ev).
    { intros s1 p Q X; destruct (acquire_all A c _ _ _ Q) as (E1 & E2 & E3 & E4 & _); pose proof (acquire_progs _ _ _ Q) as E5.
      apply shape_go; [apply (frame_same t s); auto|apply (at_pc_same _ s); auto; rewrite E3; reflexivity]. }
    assert (REL : forall s1 p ev', frame t s1 -> at_pc (f_of c t) s1 p ev' -> shape t (go A (release A c s1 t) t p) ev').
    { intros s1 p ev' X1 X2; destruct (release_all A c s1 t) as (R1 & R2 & R3 & R4 & _); pose proof (release_progs s1 t) as R5.
      apply shape_go; [apply (frame_same t s1); auto|apply (at_pc_same _ s1); auto; rewrite R3; reflexivity]. }
    assert (RELR : forall s1 p ev', frame t s1 -> at_pc (f_of c t) s1 p ev' -> shape t (go A (set_rlk A (release A c s1 t) (f_of c t) None) t p) ev').
    { intros s1 p ev' X1 X2; destruct (REL s1 p ev' X1 X2) as [Y1 Y2]; split; [exact Y1|exact Y2]. }
    assert (NIL : forall s1, shape t s1 ev -> shape t s1 (ev ++ []) /\ (forall h d n, In (EMoved A h d n) [] -> below n (last_len ev))).
    { intros s1 X; rewrite app_nil_r; split; [exact X|intros ? ? ? []]. }
    destruct (pcs A s t) eqn:PC; cbn [at_pc] in P.
    - destruct (progs A s t) as [|w r] eqn:PR; [discriminate|]; injection E as <- <-; apply NIL, shape_go; [|exact P].
      destruct F as (F1 & F2 & F3 & F4); split; [exact F1|]; split; [|split; [exact F3|exact F4]].
      intros v N; cbn; rewrite upd_other by exact N; apply F2, N.
    - destruct (rlk A s (f_of c t)) eqn:K; [discriminate|]; injection E as <- <-; apply NIL, shape_go; [exact F|exact P].
    - destruct (c_dest ch) as [d|]; injection E as <- <-; (split; [|intros ? ? ? [Q|[]]; discriminate]).
      + apply shape_go; [exact F|]; apply (at_pc_ev _ _ (Move0 A s0 d)); [reflexivity|exact P].
      + apply shape_go; [exact F|]; destruct P as (i & b & O & D & L & B & Z); exists i, b; repeat split; auto.
        specialize (BR _ _ _ (or_introl eq_refl)); unfold size in BR; rewrite D in BR; symmetry in BR; apply Nat.leb_gt in BR; exact BR.
    - destruct (acquire A c s t) as [s1|] eqn:Q; [|discriminate]; injection E as <- <-; apply NIL, (ACQ _ _ eq_refl), P.
    - destruct P as (i & b & O & D & L & B & Z); destruct (move A c s d) as [s1|] eqn:M; [|unfold move in M; rewrite D in M; discriminate].
      injection E as <- <-; split.
      + assert (ND : d <> f_name c) by (apply (ON (f_of c t) d (match size A c s with Some n => n | None => 0 end)); left; reflexivity).
        destruct (move_all A c _ _ _ M) as (M1 & _ & _ & M2).
        assert (M3 : progs A s1 = progs A s) by (unfold move in M; rewrite D in M; injection M as <-; destruct (f_cross c); reflexivity).
        destruct F as (F1 & F2 & F3 & F4).
        assert (M4 : exists k, dir A s1 = dset String.eqb (ddel String.eqb (dir A s) (f_name c)) d k) by (unfold move in M; rewrite D in M; injection M as <-; destruct (f_cross c); cbn; eauto).
        destruct M4 as (k & M4).
        apply shape_go; [split; [rewrite M1; exact F1|split; [rewrite M3; exact F2|split; [unfold buffer; rewrite M2; exact F3|]]]|].
        * rewrite M4; apply (NoDup_dset String.eqb String.eqb_spec), (NoDup_ddel String.eqb), F4.
        * cbn; unfold buffer; rewrite M2, O, M4; split; [exact B|].
          rewrite (dget_dset String.eqb String.eqb_spec); destruct (String.eqb_spec (f_name c) d); [congruence|].
          apply (dget_ddel_same String.eqb String.eqb_spec), F4.
      + intros h d0 n [Q|[]]; injection Q as <- <- <-; unfold size; rewrite D; exact Z.
    - injection E as <- <-; destruct P as [B D]; destruct (emit_all_is s (f_of c t)) as (n & ->); apply NIL, shape_go.
      + destruct (emit_frame t s (f_of c t) n F) as (F1 & F2 & F3 & F4); split; [exact F1|]; split; [exact F2|]; split; [|exact F4].
        intros g N; unfold buffer; cbn; rewrite upd_other by exact N; apply F3, N.
      + destruct (emit_nothing s (f_of c t) n B) as (Z1 & _ & _); cbn; rewrite upd_same, Z1; auto.
    - injection E as <- <-; destruct P as [O D]; apply NIL, RELR.
      + destruct F as (F1 & F2 & F3 & F4); unfold reopen; rewrite D; split; [exact F1|]; split; [exact F2|]; split.
        * intros g N; unfold buffer; cbn; rewrite upd_other by exact N; apply F3, N.
        * apply (NoDup_dset String.eqb String.eqb_spec), F4.
      + unfold reopen; rewrite D; exists (length (inodes A s)), []; cbn; rewrite upd_same, (dget_dset String.eqb String.eqb_spec), String.eqb_refl, app_length; cbn.
        repeat split; [lia|]; rewrite app_nth2, Nat.sub_diag by lia; exact LP.
    - destruct (acquire A c s t) as [s1|] eqn:Q; [|discriminate]; injection E as <- <-; apply NIL, (ACQ _ _ eq_refl), P.
    - destruct P as (i & b & O & D & L & -> & Z); rewrite O, FF in E; injection E as <- <-; split; [|intros ? ? ? [Q|[]]; discriminate].
      apply REL.
      + destruct F as (F1 & F2 & F3 & F4); split; [exact F1|]; split; [exact F2|]; split; [|exact F4].
        intros g N; unfold buffer; cbn; rewrite upd_other by exact N; apply F3, N.
      + exists i, s0; cbn; rewrite upd_same, last_len_app; cbn; repeat split; auto; cbn in Z |- *; lia.
    - destruct (acquire A c s t) as [s1|] eqn:Q; [|discriminate]; injection E as <- <-; apply NIL, (ACQ _ _ eq_refl), P.
    - injection E as <- <-; apply NIL, REL; [destruct (emit_all_is s (f_of c t)) as (n & ->); apply emit_frame, F|].
      destruct P as (i & b & O & D & L & Z); unfold emit_all; rewrite O.
      apply (linked_emit _ _ _ (fun m b0 => b0 = b /\ below (m + length b) (last_len ev))).
      + intros m b0 m' E1 _ [-> E3]; rewrite skipn_all in *; cbn in E1; split; [reflexivity|]; rewrite Nat.add_0_r in E1; subst m'; exact E3.
      + exists i, b; repeat split; auto.
  Qed.

  Lemma start_shape : forall t p0, NoDup (map fst others) -> ~ In (f_name c) (map fst others) -> (forall u, u <> t -> p0 u = []) ->
    shape t (fstart A c others old p0) [].
  Proof.
    intros t p0 N1 N2 PP; split.
    - split; [reflexivity|]; split; [exact PP|]; split; [reflexivity|]; cbn; rewrite map_app; cbn.
      replace (length others) with (length (map fst others)) by apply map_length; rewrite combine_keys.
      apply NoDup_Add with (a := f_name c) (l := map fst others); [|split; assumption].
      pose proof (Add_app (f_name c) (map fst others) []) as Q; rewrite app_nil_r in Q; exact Q.
    - cbn; exists (length others), []; cbn; split; [reflexivity|]; split.
      + rewrite dget_app; destruct (dget String.eqb (combine (map fst others) (seq 0 (length others))) (f_name c)) as [k|] eqn:Q.
        * exfalso; apply N2; replace (length others) with (length (map fst others)) in Q by apply map_length.
          apply (dget_In String.eqb String.eqb_spec) in Q.
          rewrite <- (combine_keys (map fst others) 0); apply in_map_iff; eexists; split; [|exact Q]; reflexivity.
        * cbn; rewrite String.eqb_refl; reflexivity.
      + split; [rewrite app_length, map_length; cbn; lia|split; [reflexivity|exact I]].
  Qed.

  (** C59: one thread, forced_flush, the decision exactly by the size: the file never exceeds the limit by more than the record
      written last; neither the live file between the records nor a file at the moment it is moved. *)
  Theorem C59_overshoot : forall t p0 l s ev, f_forced c = true -> 0 < limit ->
    NoDup (map fst others) -> ~ In (f_name c) (map fst others) -> (forall u, u <> t -> p0 u = []) -> no_fault l ->
    frun A c (fstart A c others old p0) l = Some (s, ev) -> exact_rule ev -> other_names ev ->
    (pcs A s t = Idle A -> exists n, size A c s = Some n /\ below n (last_len ev)) /\
    (forall a h d n b, ev = a ++ EMoved A h d n :: b -> below n (last_len a)).
  Proof.
    intros t p0 l s ev FF LP N1 N2 PP NF E BR ON.
    assert (G : forall l s0 s ev0 ev, shape t s0 ev0 -> no_fault l -> exact_rule ev -> other_names ev -> frun A c s0 l = Some (s, ev) ->
      shape t s (ev0 ++ ev) /\ (forall a h d n b, ev = a ++ EMoved A h d n :: b -> below n (last_len (ev0 ++ a)))).
    { clear -FF LP; induction l as [|x l IH]; intros s0 s ev0 ev S NF BR ON E; cbn in E.
      - injection E as <- <-; rewrite app_nil_r; split; [exact S|intros [|? ?] ? ? ? ?; discriminate].
      - destruct (fstep A c s0 x) as [[s1 e1]|] eqn:E1; [|discriminate]; destruct (frun A c s1 l) as [[s2 e2]|] eqn:E2; [|discriminate].
        injection E as <- <-.
        destruct (shape_step t s0 x s1 ev0 e1 FF LP S) as [S1 M1]; [intros ? ? ? Q; eapply BR, in_or_app; left; exact Q|intros ? ? ? Q; eapply ON, in_or_app; left; exact Q| |exact E1|].
        { intros u ch [Q|[]]; apply (NF u); left; exact Q. }
        destruct (IH s1 s2 (ev0 ++ e1) e2 S1) as [S2 M2]; [intros u ch Q; apply (NF u); right; exact Q|intros ? ? ? Q; eapply BR, in_or_app; right; exact Q|intros ? ? ? Q; eapply ON, in_or_app; right; exact Q|exact E2|].
        split; [rewrite app_assoc; exact S2|].
        assert (ONE : length e1 <= 1).
        { clear -E1; unfold fstep in E1; destruct x as [u ch|]; [|injection E1 as <- <-; cbn; lia].
          destruct (pcs A s0 u); [destruct (progs A s0 u)|destruct (rlk A s0 (f_of c u))|destruct (c_dest ch)|destruct (acquire A c s0 u)|destruct (if c_move ch then move A c s0 d else None)| | |destruct (acquire A c s0 u)|destruct (obj A s0 (f_of c u))|destruct (acquire A c s0 u)|];
            try discriminate; injection E1 as <- <-; cbn; lia. }
        intros a h d n b Q; destruct e1 as [|e e1]; [cbn in Q; specialize (M2 a h d n b Q); rewrite app_nil_r in M2; exact M2|].
        destruct e1; [|cbn in ONE; lia]; destruct a as [|e0 a]; cbn in Q.
        + injection Q as Q1 Q2; rewrite app_nil_r; apply (M1 h d n); left; exact Q1.
        + injection Q as Q1 Q2; subst e0; specialize (M2 a h d n b Q2); rewrite <- app_assoc in M2; exact M2. }
    destruct (G l _ s [] ev (start_shape t p0 N1 N2 PP) NF BR ON E) as [[_ S] M]; cbn in S, M; split; [|exact M].
    intros PC; rewrite PC in S; destruct S as (i & b & O & D & L & -> & Z); unfold size; rewrite D; eauto.
  Qed.
End FilesSize.
