(** C42: what the double lock excludes, and what it does not. *)
From Coq Require Import Lia.
From Verif Require Import Base Lock_Model.
Local Open Scope list_scope.

Lemma upd_same : forall A (f : nat -> A) k v, upd f k v k = v.
Proof. intros; unfold upd; rewrite Nat.eqb_refl; reflexivity. Qed.
Lemma upd_other : forall A (f : nat -> A) k v x, x <> k -> upd f k v x = f x.
Proof. intros A f k v x N; unfold upd; destruct (Nat.eqb_spec x k); congruence. Qed.

Section Excl.
  Variable c : lconf.
  Variable of : tid -> hid.
  Notation lstep := (lstep c of).
  Notation lrun := (lrun c of).
  Notation reachable := (reachable c of).

  (** The places at which each of the two locks is held. *)
  Definition has_thread (p : pc) : bool := match p with Want2 | In | Exit1 => true | Exit2 => negb (l_thread_first c) | _ => false end.
  Definition has_file (p : pc) : bool := match p with In | Exit1 => true | Exit2 => l_thread_first c | _ => false end.

  Lemma lrun_app : forall a b s, lrun s (a ++ b) = match lrun s a with Some s1 => lrun s1 b | None => None end.
  Proof. induction a as [|t r IH]; intros b s; [reflexivity|]; cbn; destruct (lstep s t); [apply IH|reflexivity]. Qed.

  (** The effect of a step on the two locks and on the places. *)
  Lemma step_cases : forall s t s', lstep s t = Some s' ->
    (exists p, s' = at_pc (mkS (tl s') (fo s') (pcs s)) t p) /\
    match pcs s t with
    | Out => pcs s' t = Want1 /\ tl s' = tl s /\ fo s' = fo s
    | Want1 => pcs s' t = Want2 /\ fo s' = fo s /\ (if l_thread c then tl s (of t) = None /\ tl s' = upd (tl s) (of t) (Some t) else tl s' = tl s)
    | Want2 => pcs s' t = In /\ tl s' = tl s /\ (if l_file c then (fo s = None \/ fo s = Some (of t)) /\ fo s' = Some (of t) else fo s' = fo s)
    | In => pcs s' t = Exit1 /\ tl s' = tl s /\ fo s' = fo s
    | Exit1 => pcs s' t = Exit2 /\
        if l_thread_first c then fo s' = fo s /\ tl s' = (if l_thread c then upd (tl s) (of t) None else tl s)
        else tl s' = tl s /\ (if l_file c then (fo s = Some (of t) /\ fo s' = None) \/ (fo s <> Some (of t) /\ fo s' = fo s) else fo s' = fo s)
    | Exit2 => pcs s' t = Out /\
        if l_thread_first c then tl s' = tl s /\ (if l_file c then (fo s = Some (of t) /\ fo s' = None) \/ (fo s <> Some (of t) /\ fo s' = fo s) else fo s' = fo s)
        else fo s' = fo s /\ tl s' = (if l_thread c then upd (tl s) (of t) None else tl s)
    end.
  Proof.
    intros s t s' E; unfold Lock_Model.lstep in E; destruct s as [tls fos pp]; cbn [pcs tl fo] in *.
    assert (F : (if l_file c then (fos = Some (of t) /\ fo (drop_file c of (mkS tls fos pp) t) = None) \/ (fos <> Some (of t) /\ fo (drop_file c of (mkS tls fos pp) t) = fos) else fo (drop_file c of (mkS tls fos pp) t) = fos) /\ tl (drop_file c of (mkS tls fos pp) t) = tls /\ pcs (drop_file c of (mkS tls fos pp) t) = pp).
    { unfold drop_file; cbn [fo tl pcs]; destruct (l_file c); [|repeat split; reflexivity].
      destruct fos as [h|]; [|repeat split; right; split; [discriminate|reflexivity]].
      destruct (Nat.eqb_spec h (of t)) as [->|N]; repeat split; [left; split; reflexivity|right; split; [congruence|reflexivity]]. }
    assert (T : tl (drop_thread c of (mkS tls fos pp) t) = (if l_thread c then upd tls (of t) None else tls) /\ fo (drop_thread c of (mkS tls fos pp) t) = fos /\ pcs (drop_thread c of (mkS tls fos pp) t) = pp).
    { unfold drop_thread; destruct (l_thread c); repeat split. }
    destruct F as (F1 & F2 & F3), T as (T1 & T2 & T3).
    destruct (pp t) eqn:P.
    - injection E as <-; cbn; rewrite upd_same; split; [exists Want1; reflexivity|auto].
    - unfold take_thread in E; cbn [tl fo pcs] in E; destruct (l_thread c).
      + destruct (tls (of t)) eqn:H; [discriminate|]; injection E as <-; cbn; rewrite upd_same; split; [exists Want2; reflexivity|auto].
      + injection E as <-; cbn; rewrite upd_same; split; [exists Want2; reflexivity|auto].
    - unfold take_file in E; cbn [tl fo pcs] in E; destruct (l_file c).
      + destruct fos as [h|].
        * destruct (Nat.eqb_spec h (of t)) as [->|N]; [|discriminate]; injection E as <-; cbn; rewrite upd_same; split; [exists In; reflexivity|auto].
        * injection E as <-; cbn; rewrite upd_same; split; [exists In; reflexivity|auto].
      + injection E as <-; cbn; rewrite upd_same; split; [exists In; reflexivity|auto].
    - injection E as <-; cbn; rewrite upd_same; split; [exists Exit1; reflexivity|auto].
    - injection E as <-; cbn [at_pc pcs tl fo]; rewrite upd_same; destruct (l_thread_first c);
      (split; [exists Exit2; unfold at_pc; cbn; rewrite ?T3, ?F3; reflexivity|auto]).
    - injection E as <-; cbn [at_pc pcs tl fo]; rewrite upd_same; destruct (l_thread_first c);
      (split; [exists Out; unfold at_pc; cbn; rewrite ?T3, ?F3; reflexivity|auto]).
  Qed.
  Lemma step_others : forall s t s' u, lstep s t = Some s' -> u <> t -> pcs s' u = pcs s u.
  Proof.
    intros s t s' u E N; destruct (step_cases s t s' E) as [(p & Ep) _]; rewrite Ep; cbn; apply upd_other, N.
  Qed.

  Lemma reachable_ind : forall P : lstate -> Prop, P lstart -> (forall s t s', reachable s -> P s -> lstep s t = Some s' -> P s') ->
    forall s, reachable s -> P s.
  Proof.
    intros P P0 PS s (l & E); revert s E; induction l as [|t r IH] using rev_ind; intros s E.
    - injection E as <-; exact P0.
    - rewrite lrun_app in E; destruct (lrun lstart r) as [s1|] eqn:E1; [|discriminate]; cbn in E.
      destruct (lstep s1 t) as [s2|] eqn:E2; [|discriminate]; injection E as <-.
      apply (PS s1 t); [exists r; exact E1|apply IH; reflexivity|exact E2].
  Qed.

  (** The thread lock is held exactly by the participant that is between taking and releasing it. *)
  Definition inv_thread (s : lstate) : Prop := l_thread c = true ->
    (forall t, has_thread (pcs s t) = true -> tl s (of t) = Some t) /\
    (forall h t, tl s h = Some t -> of t = h /\ has_thread (pcs s t) = true).
  Lemma thread_inv : forall s, reachable s -> inv_thread s.
  Proof.
    apply reachable_ind.
    - intros L; split; cbn; [discriminate|discriminate].
    - intros s t s' _ I E L; destruct (I L) as [A B]; destruct (step_cases s t s' E) as [_ K]; pose proof (fun u => step_others s t s' u E) as O.
      assert (KEEP : tl s' = tl s -> has_thread (pcs s' t) = has_thread (pcs s t) ->
        (forall t, has_thread (pcs s' t) = true -> tl s' (of t) = Some t) /\ (forall h t, tl s' h = Some t -> of t = h /\ has_thread (pcs s' t) = true)).
      { intros T P; rewrite T; split.
        - intros u; destruct (Nat.eq_dec u t) as [->|N]; [rewrite P|rewrite O by exact N]; apply A.
        - intros h u H; destruct (B h u H) as [B1 B2]; split; [exact B1|]; destruct (Nat.eq_dec u t) as [->|N]; [rewrite P|rewrite O by exact N]; exact B2. }
      assert (DROP : tl s' = upd (tl s) (of t) None -> has_thread (pcs s t) = true -> has_thread (pcs s' t) = false ->
        (forall t, has_thread (pcs s' t) = true -> tl s' (of t) = Some t) /\ (forall h t, tl s' h = Some t -> of t = h /\ has_thread (pcs s' t) = true)).
      { intros T P1 P2; rewrite T; split.
        - intros u U; destruct (Nat.eq_dec u t) as [->|N]; [congruence|]; rewrite O in U by exact N.
          destruct (Nat.eq_dec (of u) (of t)) as [Q|Q]; [|rewrite upd_other by exact Q; apply A, U].
          exfalso; apply N; pose proof (A u U); pose proof (A t P1); congruence.
        - intros h u U; destruct (Nat.eq_dec h (of t)) as [->|N]; [rewrite upd_same in U; discriminate|rewrite upd_other in U by exact N].
          destruct (B h u U) as [B1 B2]; split; [exact B1|]; rewrite O; [exact B2|congruence]. }
      destruct (pcs s t) eqn:P.
      + destruct K as (K1 & K2 & K3); apply KEEP; [exact K2|rewrite K1; reflexivity].
      + destruct K as (K1 & K2 & K3); rewrite L in K3; destruct K3 as [K3 K4]; rewrite K4; split.
        * intros u U; destruct (Nat.eq_dec u t) as [->|N]; [apply upd_same|]; rewrite O in U by exact N.
          rewrite upd_other; [apply A, U|intros Q; rewrite <- Q in K3; pose proof (A u U); congruence].
        * intros h u U; destruct (Nat.eq_dec h (of t)) as [->|N].
          -- rewrite upd_same in U; injection U as <-; rewrite K1; split; reflexivity.
          -- rewrite upd_other in U by exact N; destruct (B h u U) as [B1 B2]; split; [exact B1|]; rewrite O; [exact B2|congruence].
      + destruct K as (K1 & K2 & K3); apply KEEP; [exact K2|rewrite K1; reflexivity].
      + destruct K as (K1 & K2 & K3); apply KEEP; [exact K2|rewrite K1; reflexivity].
      + destruct K as (K1 & K2); destruct (l_thread_first c) eqn:TF.
        * destruct K2 as [K2 K3]; rewrite L in K3; apply DROP; [exact K3|reflexivity|rewrite K1; cbn; rewrite TF; reflexivity].
        * destruct K2 as [K2 K3]; apply KEEP; [exact K2|rewrite K1; cbn; rewrite TF; reflexivity].
      + destruct K as (K1 & K2); destruct (l_thread_first c) eqn:TF.
        * destruct K2 as [K2 K3]; apply KEEP; [exact K2|rewrite K1; cbn; rewrite TF; reflexivity].
        * destruct K2 as [K2 K3]; rewrite L in K3; apply DROP; [exact K3|cbn; rewrite TF; reflexivity|rewrite K1; reflexivity].
  Qed.

  (** C42: with a thread lock, at most one thread of a handler is inside, in every interleaving. *)
  Theorem C42_threads_of_a_handler : l_thread c = true -> forall s t u, reachable s -> of t = of u ->
    pcs s t = In -> pcs s u = In -> t = u.
  Proof.
    intros L s t u R O Pt Pu; destruct (thread_inv s R L) as [A _].
    assert (tl s (of t) = Some t) by (apply A; rewrite Pt; reflexivity).
    assert (tl s (of u) = Some u) by (apply A; rewrite Pu; reflexivity).
    congruence.
  Qed.

  (** Whoever owns the lock file still has to release it. *)
  Definition inv_owner (s : lstate) : Prop := l_file c = true -> forall h, fo s = Some h -> exists u, of u = h /\ has_file (pcs s u) = true.
  Lemma owner_inv : forall s, reachable s -> inv_owner s.
  Proof.
    apply reachable_ind.
    - intros L h; cbn; discriminate.
    - intros s t s' _ I E L h H; destruct (step_cases s t s' E) as [_ K]; pose proof (fun u => step_others s t s' u E) as O.
      assert (KEEP : fo s = Some h -> has_file (pcs s t) = false \/ has_file (pcs s' t) = true -> exists u, of u = h /\ has_file (pcs s' u) = true).
      { intros F C; destruct (I L h F) as (u & U1 & U2); destruct (Nat.eq_dec u t) as [->|N].
        - exists t; split; [exact U1|]; destruct C as [C|C]; congruence.
        - exists u; rewrite O by exact N; split; assumption. }
      destruct (pcs s t) eqn:P.
      + destruct K as (K1 & K2 & K3); apply KEEP; [congruence|left; reflexivity].
      + destruct K as (K1 & K2 & K3); apply KEEP; [congruence|left; reflexivity].
      + destruct K as (K1 & K2 & K3); rewrite L in K3; destruct K3 as [K3 K4]; exists t; rewrite K1; split; [congruence|reflexivity].
      + destruct K as (K1 & K2 & K3); apply KEEP; [congruence|right; rewrite K1; reflexivity].
      + destruct K as (K1 & K2); destruct (l_thread_first c) eqn:TF.
        * apply KEEP; [destruct K2; congruence|right; rewrite K1; cbn; exact TF].
        * destruct K2 as [_ K2]; rewrite L in K2; destruct K2 as [[F F']|[F F']]; [congruence|].
          rewrite F' in H; destruct (I L h H) as (u & U1 & U2); exists u; split; [exact U1|]; rewrite O; [exact U2|congruence].
      + destruct K as (K1 & K2); destruct (l_thread_first c) eqn:TF.
        * destruct K2 as [_ K2]; rewrite L in K2; destruct K2 as [[F F']|[F F']]; [congruence|].
          rewrite F' in H; destruct (I L h H) as (u & U1 & U2); exists u; split; [exact U1|]; rewrite O; [exact U2|congruence].
        * apply KEEP; [destruct K2; congruence|left; cbn; exact TF].
  Qed.

  (** The lock file is owned by the handler of whoever relies on it, if nobody else of the same handler can release it. *)
  Lemma file_inv : l_file c = true -> (forall t u, t <> u -> of t = of u -> forall s, reachable s ->
      has_file (pcs s t) = true -> has_file (pcs s u) = false) ->
    forall s, reachable s -> forall t, has_file (pcs s t) = true -> fo s = Some (of t).
  Proof.
    intros L X; apply (reachable_ind (fun s => forall t, has_file (pcs s t) = true -> fo s = Some (of t))).
    - cbn; discriminate.
    - intros s t s' R I E u U; destruct (step_cases s t s' E) as [_ K]; pose proof (fun u => step_others s t s' u E) as O.
      assert (R' : reachable s') by (destruct R as (l & El); exists (l ++ [t]); rewrite lrun_app, El; cbn; rewrite E; reflexivity).
      assert (KEEP : fo s' = fo s -> (has_file (pcs s t) = true \/ has_file (pcs s' t) = false) -> fo s' = Some (of u)).
      { intros F C; rewrite F; destruct (Nat.eq_dec u t) as [->|N]; [|rewrite O in U by exact N; apply I, U].
        destruct C as [C|C]; [apply I, C|congruence]. }
      assert (DROP : has_file (pcs s t) = true -> has_file (pcs s' t) = false -> fo s' = fo s \/ u <> t -> fo s = Some (of t) -> fo s' = Some (of u)).
      { intros P1 P2 _ F; destruct (Nat.eq_dec u t) as [->|N]; [congruence|]; rewrite O in U by exact N.
        pose proof (I u U) as Iu; rewrite F in Iu; injection Iu as Q.
        rewrite (X t u) in U; [discriminate|congruence|exact Q|exact R|exact P1]. }
      destruct (pcs s t) eqn:P.
      + destruct K as (K1 & K2 & K3); apply KEEP; [exact K3|right; rewrite K1; reflexivity].
      + destruct K as (K1 & K2 & K3); apply KEEP; [exact K2|right; rewrite K1; reflexivity].
      + destruct K as (K1 & K2 & K3); rewrite L in K3; destruct K3 as [K3 K4]; destruct (Nat.eq_dec u t) as [->|N]; [exact K4|].
        rewrite O in U by exact N; pose proof (I u U); rewrite K4; destruct K3; congruence.
      + destruct K as (K1 & K2 & K3); apply KEEP; [exact K3|left; reflexivity].
      + destruct K as (K1 & K2); destruct (l_thread_first c) eqn:TF.
        * apply KEEP; [destruct K2; congruence|left; reflexivity].
        * apply DROP; [reflexivity|rewrite K1; cbn; exact TF| |apply I; rewrite P; reflexivity].
          destruct (Nat.eq_dec u t) as [->|N]; [rewrite K1 in U; cbn in U; congruence|right; exact N].
      + destruct K as (K1 & K2); destruct (l_thread_first c) eqn:TF.
        * apply DROP; [cbn; exact TF|rewrite K1; reflexivity| |apply I; rewrite P; cbn; exact TF].
          destruct (Nat.eq_dec u t) as [->|N]; [rewrite K1 in U; discriminate|right; exact N].
        * apply KEEP; [destruct K2; congruence|right; rewrite K1; reflexivity].
  Qed.

  (** C42: with a file lock, at most one handler is inside, provided each handler is used by one thread. *)
  Theorem C42_handlers_with_one_thread : l_file c = true -> (forall t u, of t = of u -> t = u) ->
    forall s t u, reachable s -> pcs s t = In -> pcs s u = In -> t = u.
  Proof.
    intros L J s t u R Pt Pu.
    assert (F : forall t, has_file (pcs s t) = true -> fo s = Some (of t)).
    { apply file_inv; [exact L| |exact R]; intros a b N Q; exfalso; apply N, J, Q. }
    apply J; assert (fo s = Some (of t)) by (apply F; rewrite Pt; reflexivity).
    assert (fo s = Some (of u)) by (apply F; rewrite Pu; reflexivity); congruence.
  Qed.

  (** C42: if the file lock were released first, both locks together would exclude everybody. *)
  Theorem C42_other_order_excludes_all : l_thread c = true -> l_file c = true -> l_thread_first c = false ->
    forall s t u, reachable s -> pcs s t = In -> pcs s u = In -> t = u.
  Proof.
    intros L1 L2 TF s t u R Pt Pu.
    assert (X : forall t u, t <> u -> of t = of u -> forall s, reachable s -> has_file (pcs s t) = true -> has_file (pcs s u) = false).
    { intros a b N Q s' R' A; destruct (has_file (pcs s' b)) eqn:B; [exfalso|reflexivity].
      destruct (thread_inv s' R' L1) as [T _]; assert (G : forall x, has_file (pcs s' x) = true -> has_thread (pcs s' x) = true).
      { intros x; destruct (pcs s' x); cbn; rewrite ?TF; auto. }
      pose proof (T a (G a A)); pose proof (T b (G b B)); congruence. }
    assert (F := file_inv L2 X s R).
    apply (C42_threads_of_a_handler L1 s t u R); [|exact Pt|exact Pu].
    assert (fo s = Some (of t)) by (apply F; rewrite Pt; reflexivity).
    assert (fo s = Some (of u)) by (apply F; rewrite Pu; reflexivity); congruence.
  Qed.

  (** ** Progress *)
  Lemma somebody_moves : forall s t, reachable s -> pcs s t <> Out -> exists u, pcs s u <> Out /\ lstep s u <> None.
  Proof.
    intros s t R N.
    assert (GO : forall u, match pcs s u with In | Exit1 | Exit2 => True | _ => False end -> exists u, pcs s u <> Out /\ lstep s u <> None).
    { intros u U; exists u; unfold Lock_Model.lstep; destruct (pcs s u); try contradiction; split; discriminate. }
    assert (W2 : forall u, pcs s u = Want2 -> exists u, pcs s u <> Out /\ lstep s u <> None).
    { intros u U; destruct (lstep s u) as [x|] eqn:E; [exists u; split; congruence|].
      unfold Lock_Model.lstep in E; rewrite U in E; unfold take_file in E.
      destruct (l_file c) eqn:L; [|discriminate]; destruct (fo s) as [h|] eqn:F; [|discriminate].
      destruct (owner_inv s R L h F) as (v & V1 & V2); apply (GO v); destruct (pcs s v); cbn in V2; try discriminate; exact I. }
    destruct (pcs s t) eqn:P; [contradiction| |exact (W2 t P)|apply (GO t); rewrite P; exact I|apply (GO t); rewrite P; exact I|apply (GO t); rewrite P; exact I].
    destruct (lstep s t) as [x|] eqn:E; [exists t; split; congruence|].
    unfold Lock_Model.lstep in E; rewrite P in E; unfold take_thread in E.
    destruct (l_thread c) eqn:L; [|discriminate]; destruct (tl s (of t)) as [v|] eqn:F; [|discriminate].
    destruct (thread_inv s R L) as [_ B]; destruct (B _ _ F) as [_ V].
    destruct (pcs s v) eqn:Q; cbn in V; try discriminate; [apply (W2 v Q)| | |]; apply (GO v); rewrite Q; exact I.
  Qed.

  Definition weight (p : pc) : nat := match p with Out => 0 | Want1 => 5 | Want2 => 4 | In => 3 | Exit1 => 2 | Exit2 => 1 end.
  Definition total (ts : list tid) (s : lstate) : nat := list_sum (map (fun t => weight (pcs s t)) ts).
  Lemma total_decreases : forall ts s t s', NoDup ts -> List.In t ts -> pcs s t <> Out -> lstep s t = Some s' -> total ts s' < total ts s.
  Proof.
    intros ts s t s' D M N E; pose proof (fun u => step_others s t s' u E) as O; destruct (step_cases s t s' E) as [_ K].
    assert (Wt : weight (pcs s' t) < weight (pcs s t)).
    { destruct (pcs s t); [contradiction| | | | |]; destruct K as [-> _]; cbn; lia. }
    unfold total; induction D as [|x r Nx D IH]; [destruct M|]; cbn [map list_sum fold_right].
    change (fold_right Nat.add 0 (map (fun t => weight (pcs s' t)) r)) with (list_sum (map (fun t => weight (pcs s' t)) r)).
    change (fold_right Nat.add 0 (map (fun t => weight (pcs s t)) r)) with (list_sum (map (fun t => weight (pcs s t)) r)).
    destruct M as [->|M].
    - assert (Q : map (fun t => weight (pcs s' t)) r = map (fun t => weight (pcs s t)) r).
      { apply map_ext_in; intros u U; rewrite O; [reflexivity|intros ->; contradiction]. }
      unfold list_sum in *; cbn [fold_right]; rewrite Q; lia.
    - specialize (IH M); rewrite (O x); [unfold list_sum in *; cbn [fold_right] in *; lia|intros ->; contradiction].
  Qed.

  (** C42: no deadlock: from every reachable state, whoever has begun to enter can get inside and leave again. *)
  Theorem C42_all_can_finish : forall s ts, reachable s -> NoDup ts -> (forall t, pcs s t <> Out -> List.In t ts) ->
    exists l s', lrun s l = Some s' /\ (forall t, List.In t l -> List.In t ts) /\ forall t, pcs s' t = Out.
  Proof.
    intros s ts R D C; remember (total ts s) as n eqn:En; revert s R C En.
    induction n as [n IH] using lt_wf_ind; intros s R C En.
    destruct (existsb (fun t => match pcs s t with Out => false | _ => true end) ts) eqn:X.
    - apply existsb_exists in X; destruct X as (t & M & X).
      assert (N : pcs s t <> Out) by (intros K; rewrite K in X; discriminate).
      destruct (somebody_moves s t R N) as (u & U1 & U2); destruct (lstep s u) as [s1|] eqn:E; [|congruence].
      assert (R1 : reachable s1) by (destruct R as (l & El); exists (l ++ [u]); rewrite lrun_app, El; cbn; rewrite E; reflexivity).
      assert (C1 : forall v, pcs s1 v <> Out -> List.In v ts).
      { intros v V; destruct (Nat.eq_dec v u) as [->|Nv]; [apply C, U1|apply C; rewrite <- (step_others s u s1 v E Nv); exact V]. }
      assert (Lt : total ts s1 < n) by (rewrite En; apply (total_decreases ts s u); [exact D|apply C, U1|exact U1|exact E]).
      destruct (IH _ Lt s1 R1 C1 eq_refl) as (l & s' & L1 & L2 & L3).
      exists (u :: l), s'; cbn; rewrite E; split; [exact L1|split; [intros v [<-|V]; [apply C, U1|apply L2, V]|exact L3]].
    - exists [], s; split; [reflexivity|split; [intros v []|]].
      intros t; destruct (pcs s t) eqn:P; [reflexivity|..]; exfalso; assert (M : List.In t ts) by (apply C; congruence);
      assert (Y : existsb (fun t => match pcs s t with Out => false | _ => true end) ts = true) by (apply existsb_exists; exists t; rewrite P; auto); congruence.
  Qed.
End Excl.

(** The code: 'thread+file', the thread lock released first. *)
Definition both : lconf := mkL true true true.
Definition file_only : lconf := mkL false true true.
(** Threads 0 and 1 use handler 0, thread 2 uses handler 1. *)
Definition two_and_one (t : tid) : hid := match t with 2 => 1 | _ => 0 end.
(** The claim fails with both locks: a thread that leaves drops the file lock of the next thread of the same handler. *)
Theorem C42_both_locks_exclude_refuted : exists s, reachable both two_and_one s /\ pcs s 1 = In /\ pcs s 2 = In /\ two_and_one 1 <> two_and_one 2.
Proof.
  destruct (lrun both two_and_one lstart [0; 0; 0; 1; 2; 2; 0; 0; 1; 1; 0; 2]) as [s|] eqn:E; [|vm_compute in E; discriminate].
  exists s; split; [eexists; exact E|]; vm_compute in E; injection E as <-; repeat split; discriminate.
Qed.
(** With the file lock alone the threads of one handler do not exclude each other. *)
Theorem C42_file_lock_between_threads_refuted : exists s, reachable file_only (fun _ => 0) s /\ pcs s 0 = In /\ pcs s 1 = In.
Proof.
  destruct (lrun file_only (fun _ => 0) lstart [0; 0; 0; 1; 1; 1]) as [s|] eqn:E; [|vm_compute in E; discriminate].
  exists s; split; [eexists; exact E|]; vm_compute in E; injection E as <-; split; reflexivity.
Qed.
(** The thread lock alone does not exclude two handlers of the same file. *)
Theorem C42_thread_lock_between_handlers_refuted : exists s, reachable (mkL true false true) (fun t => t) s /\ pcs s 0 = In /\ pcs s 1 = In.
Proof.
  destruct (lrun (mkL true false true) (fun t => t) lstart [0; 0; 0; 1; 1; 1]) as [s|] eqn:E; [|vm_compute in E; discriminate].
  exists s; split; [eexists; exact E|]; vm_compute in E; injection E as <-; split; reflexivity.
Qed.
(** A blocked participant: it really waits. *)
Example ex_waits : exists s, reachable both (fun t => t) s /\ pcs s 0 = In /\ lstep both (fun t => t) s 1 = None.
Proof.
  destruct (lrun both (fun t => t) lstart [0; 0; 0; 1; 1]) as [s|] eqn:E; [|vm_compute in E; discriminate].
  exists s; split; [eexists; exact E|]; vm_compute in E; injection E as <-; split; reflexivity.
Qed.

Print Assumptions C42_threads_of_a_handler.
Print Assumptions C42_handlers_with_one_thread.
Print Assumptions C42_other_order_excludes_all.
Print Assumptions C42_all_can_finish.
