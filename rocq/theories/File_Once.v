(** C39 (continued): every record a thread has to write is decided exactly once, in the order of the thread. *)
From Coq Require Import Lia.
From Verif Require Import Base File_Model File_Props File_More.
Local Open Scope string_scope.
Local Open Scope list_scope.

Section FilesOnce.
  Variable A : Type.
  Notation fev := (fev A).
  Notation fstate := (fstate A).
  Variable c : fconf.

  (** The records that a handler has written or refused, in order. *)
  Fixpoint decided (h : nat) (ev : list fev) : list (list A) :=
    match ev with
    | [] => []
    | EAccepted _ g s :: r | ERejected _ g s :: r => (if Nat.eqb g h then [s] else []) ++ decided h r
    | _ :: r => decided h r
    end.
  (** What a thread still has to write: the record in its hands and the ones to come. *)
  Definition in_hand (p : fpc A) : list (list A) :=
    match p with
    | Rot _ w | Check _ w | Move0 _ w _ | Move1 _ w _ | Move2 _ w | Move3 _ w | Write0 _ w | Write1 _ w => [w]
    | Idle _ | Flush0 _ | Flush1 _ => []
    end.
  Definition left (s : fstate) (t : nat) : list (list A) := in_hand (pcs A s t) ++ progs A s t.
  (** The records of a thread, in a list of records that names the thread of each. *)
  Definition of_thread (t : nat) (l : list (nat * list A)) : list (list A) := map snd (filter (fun x => Nat.eqb (fst x) t) l).

  Lemma decided_app : forall h a b, decided h (a ++ b) = decided h a ++ decided h b.
  Proof. intros h; induction a as [|[] a IH]; intros b; cbn; auto; rewrite IH, app_assoc; reflexivity. Qed.
  Lemma of_thread_app : forall t a b, of_thread t (a ++ b) = of_thread t a ++ of_thread t b.
  Proof. intros; unfold of_thread; rewrite filter_app, map_app; reflexivity. Qed.

  Lemma release_progs : forall s t, progs A (release A c s t) = progs A s.
  Proof. intros; unfold release; destruct (f_locked c); reflexivity. Qed.
  Lemma acquire_progs : forall s t s', acquire A c s t = Some s' -> progs A s' = progs A s.
  Proof. intros s t s'; unfold acquire; destruct (f_locked c); [destruct (flk A s (f_of c t)); [discriminate|]|]; intros E; injection E as <-; reflexivity. Qed.
  Lemma emit_progs : forall s h n, progs A (emit A s h n) = progs A s /\ pcs A (emit A s h n) = pcs A s.
  Proof. intros; unfold emit; destruct (obj A s h); split; reflexivity. Qed.
  Lemma emit_all_progs : forall s h, progs A (emit_all A s h) = progs A s.
  Proof. intros; unfold emit_all; destruct (obj A s h) eqn:O; [apply emit_progs|reflexivity]. Qed.
  Lemma reopen_progs : forall s h, progs A (reopen A c s h) = progs A s.
  Proof. intros; unfold reopen; destruct (dget _ _ _); reflexivity. Qed.
  Lemma move_progs : forall s d s', move A c s d = Some s' -> progs A s' = progs A s.
  Proof. intros s d s'; unfold move; destruct (dget _ _ _); [|discriminate]; intros E; injection E as <-; destruct (f_cross c); reflexivity. Qed.

  Lemma once_step : forall s t ch s' e, fstep A c s (Run t ch) = Some (s', e) ->
    decided (f_of c t) e ++ left s' t = left s t /\ (forall u, u <> t -> left s' u = left s u) /\ (forall g, g <> f_of c t -> decided g e = []).
  Proof.
    intros s t ch s' e E; cbn [fstep] in E.
    assert (K : forall s1 p e, progs A s1 = progs A s -> pcs A s1 = pcs A s -> (forall g, decided g e = []) -> in_hand p = in_hand (pcs A s t) ->
      decided (f_of c t) e ++ left (go A s1 t p) t = left s t /\ (forall u, u <> t -> left (go A s1 t p) u = left s u) /\ (forall g, g <> f_of c t -> decided g e = [])).
    { intros s1 p e0 E1 E2 E3 E4; rewrite E3; unfold left; cbn; rewrite E1, E2; split; [rewrite upd_same, E4; reflexivity|split; [|auto]].
      intros u N; rewrite upd_other by exact N; reflexivity. }
    assert (W : forall s1 p w e, progs A s1 = progs A s -> pcs A s1 = pcs A s -> pcs A s t = Write1 A w -> in_hand p = [] ->
      (forall g, decided g e = if Nat.eqb (f_of c t) g then [w] else []) ->
      decided (f_of c t) e ++ left (go A s1 t p) t = left s t /\ (forall u, u <> t -> left (go A s1 t p) u = left s u) /\ (forall g, g <> f_of c t -> decided g e = [])).
    { intros s1 p w e0 E1 E2 E3 E4 E5; rewrite E5, Nat.eqb_refl; unfold left; cbn; rewrite E1, E2, E3; split; [rewrite upd_same, E4; reflexivity|split].
      - intros u N; rewrite upd_other by exact N; reflexivity.
      - intros g N; rewrite E5; destruct (Nat.eqb_spec (f_of c t) g); [congruence|reflexivity]. }
    destruct (pcs A s t) eqn:P.
    - destruct (progs A s t) as [|w r] eqn:Q; [discriminate|]; injection E as <- <-; cbn [decided app]; unfold left; cbn; rewrite !upd_same, P, Q; split; [reflexivity|split; [|auto]].
      intros u N; rewrite !upd_other by exact N; reflexivity.
    - destruct (rlk A s (f_of c t)) eqn:L; [discriminate|]; injection E as <- <-; apply K; auto.
    - destruct (c_dest ch); injection E as <- <-; apply K; auto.
    - destruct (acquire A c s t) as [s1|] eqn:Q; [|discriminate]; injection E as <- <-; destruct (acquire_all A c _ _ _ Q) as (_ & _ & _ & E2 & _); apply K; auto; eapply acquire_progs; eauto.
    - destruct (if c_move ch then move A c s d else None) as [s1|] eqn:M; injection E as <- <-.
      + destruct (c_move ch); [|discriminate]; destruct (move_all A c _ _ _ M) as (M1 & _); apply K; auto; eapply move_progs; eauto.
      + destruct (release_all A c s t) as (_ & _ & _ & R & _); apply K; auto; apply release_progs.
    - injection E as <- <-; destruct (emit_all_all A s (f_of c t)) as (_ & M1 & _); apply K; auto; apply emit_all_progs.
    - injection E as <- <-; destruct (reopen_all A c s (f_of c t)) as (M1 & _).
      destruct (release_all A c (if c_open ch then reopen A c s (f_of c t) else s) t) as (_ & _ & _ & R & _); apply K; auto; cbn.
      + rewrite release_progs; destruct (c_open ch); [apply reopen_progs|reflexivity].
      + rewrite R; destruct (c_open ch); auto.
    - destruct (acquire A c s t) as [s1|] eqn:Q; [|discriminate]; injection E as <- <-; destruct (acquire_all A c _ _ _ Q) as (_ & _ & _ & E2 & _); apply K; auto; eapply acquire_progs; eauto.
    - destruct (obj A s (f_of c t)) as [i b|]; injection E as <- <-.
      + match goal with |- context [release A c ?z t] => destruct (release_all A c z t) as (_ & _ & _ & R & _) end.
        eapply W; [rewrite release_progs; reflexivity|exact R|reflexivity|destruct (f_forced c); reflexivity|intros g; cbn; apply app_nil_r].
      + destruct (release_all A c s t) as (_ & _ & _ & R & _).
        eapply W; [apply release_progs|exact R|reflexivity|reflexivity|intros g; cbn; apply app_nil_r].
    - destruct (acquire A c s t) as [s1|] eqn:Q; [|discriminate]; injection E as <- <-; destruct (acquire_all A c _ _ _ Q) as (_ & _ & _ & E2 & _); apply K; auto; eapply acquire_progs; eauto.
    - injection E as <- <-; destruct (release_all A c (emit_all A s (f_of c t)) t) as (_ & _ & _ & R & _); destruct (emit_all_all A s (f_of c t)) as (_ & M1 & _).
      apply K; auto; [rewrite release_progs; apply emit_all_progs|congruence].
  Qed.

  Lemma once_run : forall l s s' ev h, frun A c s l = Some (s', ev) ->
    exists tagged, map snd tagged = decided h ev /\ (forall x, In x tagged -> f_of c (fst x) = h) /\
      forall t, f_of c t = h -> of_thread t tagged ++ left s' t = left s t.
  Proof.
    induction l as [|x l IH]; intros s s' ev h E; cbn in E.
    { injection E as <- <-; exists []; repeat split; intros x []. }
    destruct (fstep A c s x) as [[s1 e1]|] eqn:E1; [|discriminate]; destruct (frun A c s1 l) as [[s2 e2]|] eqn:E2; [|discriminate].
    injection E as <- <-; destruct (IH s1 s2 e2 h E2) as (tg & T1 & T2 & T3); rewrite decided_app.
    destruct x as [t ch|g n].
    - destruct (once_step s t ch s1 e1 E1) as (S1 & S2 & S3); destruct (Nat.eq_dec (f_of c t) h) as [Eh|Nh].
      + rewrite Eh in *; exists (map (fun w => (t, w)) (decided h e1) ++ tg); split; [|split].
        * rewrite map_app, T1, map_map, map_id; reflexivity.
        * intros y Y; apply in_app_or in Y; destruct Y as [Y|Y]; [|apply T2, Y]; apply in_map_iff in Y; destruct Y as (w & <- & _); exact Eh.
        * intros u U; rewrite of_thread_app, <- app_assoc, (T3 u U); destruct (Nat.eq_dec u t) as [->|N].
          -- rewrite <- S1; f_equal; unfold of_thread; clear; induction (decided h e1) as [|w r IH]; [reflexivity|]; cbn; rewrite Nat.eqb_refl; cbn; rewrite IH; reflexivity.
          -- rewrite (S2 u N); assert (Z : of_thread u (map (fun w => (t, w)) (decided h e1)) = []); [|rewrite Z; reflexivity].
             unfold of_thread; clear -N; induction (decided h e1) as [|w r IH]; [reflexivity|]; cbn; destruct (Nat.eqb_spec t u); [congruence|exact IH].
      + rewrite (S3 h) by congruence; exists tg; split; [exact T1|split; [exact T2|]].
        intros u U; rewrite (T3 u U); apply S2; congruence.
    - cbn [fstep] in E1; injection E1 as <- <-; exists tg; split; [exact T1|split; [exact T2|]].
      intros u U; rewrite (T3 u U); destruct (emit_progs s g n) as [P1 P2]; unfold left; rewrite P1, P2; reflexivity.
  Qed.

  Variable others : list (string * list A).
  Variable old : list A.

  (** C39: whatever happens (rotations that fail, a file that cannot be opened), no record is forgotten and none is written twice: the
      records that a handler has accepted or refused are, thread by thread and in order, those its threads were given, except the ones
      not reached yet. *)
  Theorem C39_every_record_once : forall p0 l s ev h, frun A c (fstart A c others old p0) l = Some (s, ev) ->
    exists tagged, map snd tagged = decided h ev /\ (forall x, In x tagged -> f_of c (fst x) = h) /\
      forall t, f_of c t = h -> of_thread t tagged ++ left s t = p0 t.
  Proof.
    intros p0 l s ev h E; destruct (once_run l _ s ev h E) as (tg & T1 & T2 & T3); exists tg; auto.
  Qed.

  (** C39: with one thread in the handler: when it is done its records have been decided in their order; with the lock and a file that
      can be opened all of them are in the files (C39_every_record_accepted). *)
  Corollary C39_one_thread_done : forall p0 l s ev h t, frun A c (fstart A c others old p0) l = Some (s, ev) ->
    (forall u, f_of c u = h -> u = t \/ p0 u = []) -> f_of c t = h -> pcs A s t = Idle A -> progs A s t = [] -> decided h ev = p0 t.
  Proof.
    intros p0 l s ev h t E U T P Q; destruct (C39_every_record_once p0 l s ev h E) as (tg & T1 & T2 & T3).
    rewrite <- T1, <- (T3 t T); unfold left; rewrite P, Q; cbn; rewrite app_nil_r.
    assert (F : filter (fun x : nat * list A => Nat.eqb (fst x) t) tg = tg).
    { assert (G : forall x, In x tg -> fst x = t).
      { intros [u w] X; destruct (U u (T2 _ X)) as [->|Z]; [reflexivity|exfalso].
        specialize (T3 u (T2 _ X)); rewrite Z in T3; apply app_eq_nil in T3; destruct T3 as [T3 _].
        unfold of_thread in T3; apply map_eq_nil in T3.
        assert (K : In (u, w) (filter (fun x => Nat.eqb (fst x) u) tg)) by (apply filter_In; split; [exact X|apply Nat.eqb_refl]).
        rewrite T3 in K; destruct K. }
      clear -G; induction tg as [|x r IH]; [reflexivity|]; cbn; rewrite (G x (or_introl eq_refl)), Nat.eqb_refl, IH; [reflexivity|intros y Y; apply G; right; exact Y]. }
    unfold of_thread; rewrite F; reflexivity.
  Qed.
End FilesOnce.
(** One handler, one thread; the move fails; the record is written all the same; then the file cannot be opened and the next record is
    refused, but not forgotten. *)
Example ex_failed_move :
  let c := mkF "app.log" (fun _ => 0) true true false in
  match frun nat c (fstart nat c [] [] (fun t => match t with 0 => [[1]; [2]] | _ => [] end))
    (repeat (Run 0 (mkC (Some "logs/1") false true)) 9 ++ repeat (Run 0 (mkC (Some "logs/2") true false)) 9) with
  | Some (s, ev) => decided nat 0 ev = [[1]; [2]] /\ accepted nat 0 ev = [1] /\ left nat s 0 = []
  | None => False
  end.
Proof. vm_compute; repeat split. Qed.

Print Assumptions C39_every_record_once.
Print Assumptions C39_one_thread_done.
