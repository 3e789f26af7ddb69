(** C48: the dictionary with weak keys and values. *)
From Coq Require Import Lia.
From Verif Require Import Base Weak_Model.
Local Open Scope list_scope.

(** ** Specification: [v] was stored under [k], and since then neither [k] was stored to, deleted or popped, nor did [k] or [v] die. *)
Definition touches (o : wop) (k v : nat) : Prop :=
  match o with
  | WSet (Obj k') (Obj _) => k' = k
  | WDel (Obj k') => k' = k
  | WPop (Obj k') (_ :: _ :: _) => False
  | WPop (Obj k') _ => k' = k
  | WDie o => o = k \/ o = v
  | _ => False
  end.
Definition bound (h : list wop) (k v : nat) : Prop :=
  exists h1 h2, h = h1 ++ WSet (Obj k) (Obj v) :: h2 /\ forall o, In o h2 -> ~ touches o k v.
(** Histories without interference: nothing but callbacks happens as long as some are due. *)
Fixpoint undisturbed (s : wstate) (h : list wop) : Prop :=
  match h with
  | [] => True
  | o :: r => (match o with WCb _ => True | _ => due s = [] end) /\ match wstep s o with None => True | Some (s', _) => undisturbed s' r end
  end.

Lemma touches_dec : forall o k v, touches o k v \/ ~ touches o k v.
Proof.
  intros o k v. destruct o as [[a|] [b|]|[a|]|[a|] d|a|i]; cbn; try (right; tauto); try (destruct (Nat.eq_dec a k); [left|right]; assumption).
  - destruct d as [|x [|y d]]; [destruct (Nat.eq_dec a k); [left|right]; assumption..|right; tauto].
  - destruct (Nat.eq_dec a k); [left; left; assumption|]. destruct (Nat.eq_dec a v); [left; right; assumption|right; tauto].
Qed.
Lemma bound_snoc : forall h o k v, bound (h ++ [o]) k v <-> o = WSet (Obj k) (Obj v) \/ (bound h k v /\ ~ touches o k v).
Proof.
  intros h o k v; split.
  - intros (h1 & h2 & E & N). destruct h2 as [|x h2 _] using rev_ind.
    + apply app_inj_tail in E; destruct E as [_ ->]; left; reflexivity.
    + right. change (h ++ [o] = h1 ++ (WSet (Obj k) (Obj v) :: h2) ++ [x]) in E. rewrite app_assoc in E. apply app_inj_tail in E; destruct E as [-> ->].
      split; [|apply N, in_or_app; right; left; reflexivity]. exists h1, h2; split; [reflexivity|]. intros y I; apply N, in_or_app; left; exact I.
  - intros [->|((h1 & h2 & -> & N) & T)].
    + exists h, []; split; [reflexivity|intros y []].
    + exists h1, (h2 ++ [o]); split; [rewrite <- app_assoc; reflexivity|]. intros y I; apply in_app_or in I; destruct I as [I|[<-|[]]]; [apply N, I|exact T].
Qed.

(** ** Invariants *)
Record winv (h : list wop) (s : wstate) : Prop := mkWI {
  w_nodup : NoDup (dkeys (data s));
  w_sound : forall k v, nget (data s) k = Some v -> alive s k = true -> alive s v = true -> bound h k v;
  w_alive : forall k v, bound h k v -> alive s k = true /\ alive s v = true;
  w_deadk : forall k v, nget (data s) k = Some v -> alive s k = false -> In (KeyGone k) (due s);
  w_deadv : forall k v, nget (data s) k = Some v -> alive s k = true -> alive s v = false -> In (ValGone k) (due s);
  w_kdue : forall k, In (KeyGone k) (due s) -> alive s k = false
}.
Notation nsame := (dget_ddel_same Nat.eqb Nat.eqb_spec).
Notation nother := (dget_ddel_other Nat.eqb Nat.eqb_spec).
Lemma take_nth_In : forall B (l : list B) i x r, take_nth l i = Some (x, r) -> In x l /\ (forall y, In y l -> y = x \/ In y r) /\ (forall y, In y r -> In y l).
Proof.
  induction l as [|a l IH]; intros [|i] x r E; cbn in E; try discriminate.
  - injection E as <- <-. split; [left; reflexivity|split; [intros y [->|I]; auto|intros y I; right; exact I]].
  - destruct (take_nth l i) as [[y q]|] eqn:Eq; [|discriminate]. injection E as <- <-. destruct (IH _ _ _ Eq) as (A & B' & C).
    split; [right; exact A|split].
    + intros z [->|I]; [right; left; reflexivity|]. destruct (B' z I) as [->|J]; [left; reflexivity|right; right; exact J].
    + intros z [->|I]; [left; reflexivity|right; apply C, I].
Qed.
Lemma callbacks_key : forall o d v, In (o, v) d -> In (KeyGone o) (callbacks o d).
Proof. intros o d v I. unfold callbacks. apply in_flat_map. exists (o, v). split; [exact I|]. cbn. rewrite Nat.eqb_refl. left; reflexivity. Qed.
Lemma callbacks_val : forall o d k, In (k, o) d -> In (ValGone k) (callbacks o d).
Proof. intros o d k I. unfold callbacks. apply in_flat_map. exists (k, o). split; [exact I|]. cbn. apply in_or_app; right. rewrite Nat.eqb_refl. left; reflexivity. Qed.
Lemma callbacks_only : forall o d c, In c (callbacks o d) -> c = KeyGone o \/ exists k, c = ValGone k /\ In (k, o) d.
Proof.
  intros o d c I. unfold callbacks in I. apply in_flat_map in I. destruct I as ((k, v) & I & J). cbn in J. apply in_app_or in J; destruct J as [J|J].
  - destruct (Nat.eqb_spec k o); [|contradiction]. destruct J as [<-|[]]; left; reflexivity.
  - destruct (Nat.eqb_spec v o); [|contradiction]. destruct J as [<-|[]]; right; exists k; subst; auto.
Qed.
Lemma ndel_sub : forall (d : list (nat * nat)) k x v, NoDup (dkeys d) -> nget (ndel d k) x = Some v -> x <> k /\ nget d x = Some v.
Proof.
  intros d k x v N E. destruct (Nat.eq_dec k x) as [->|D]; [rewrite nsame in E by exact N; discriminate|]. rewrite nother in E by exact D. split; [congruence|exact E].
Qed.

Lemma winv_start : winv [] wstart.
Proof. constructor; cbn; try discriminate; try (intros; contradiction); try constructor; destruct H as ([|? ?] & ? & E & _); discriminate. Qed.
(** A step that leaves the data as it is, or deletes the entry of [k]. *)
Lemma winv_del : forall h s o k r, winv h s -> alive s k = true -> (forall v, touches o k v) -> (forall k' v, k' <> k -> ~ touches o k' v) ->
  (forall a b, o <> WSet a b) -> r = due s -> winv (h ++ [o]) (mkW (alive s) (ndel (data s) k) r).
Proof.
  intros h s o k r I A T NT NS ->. destruct I; constructor; cbn.
  - apply NoDup_ddel; assumption.
  - intros k' v G Ak Av. apply (ndel_sub _ _ _ _ w_nodup0) in G; destruct G as (D & G). apply bound_snoc; right; split; [apply w_sound0; assumption|apply NT; exact D].
  - intros k' v B. apply bound_snoc in B. destruct B as [E|(B & _)]; [elim (NS _ _ E)|apply w_alive0; exact B].
  - intros k' v G. apply (ndel_sub _ _ _ _ w_nodup0) in G; destruct G as (D & G). apply (w_deadk0 k' v G).
  - intros k' v G. apply (ndel_sub _ _ _ _ w_nodup0) in G; destruct G as (D & G). apply (w_deadv0 k' v G).
  - exact w_kdue0.
Qed.
Lemma winv_skip : forall h s o, winv h s -> (forall k v, nget (data s) k = Some v -> alive s k = true -> alive s v = true -> ~ touches o k v) ->
  (forall a b, o <> WSet (Obj a) (Obj b)) -> winv (h ++ [o]) s.
Proof.
  intros h s o I NT NS. destruct I; constructor; auto.
  - intros k v G A B. apply bound_snoc; right; split; [apply w_sound0; assumption|apply NT; assumption].
  - intros k v B. apply bound_snoc in B. destruct B as [E|(B & _)]; [elim (NS _ _ E)|apply w_alive0; exact B].
Qed.
Lemma wget_None : forall s k, wget s k = None -> nget (data s) k = None \/ exists v, nget (data s) k = Some v /\ alive s v = false.
Proof. intros s k E; unfold wget in E. destruct (nget (data s) k) as [v|]; [|left; reflexivity]. right; exists v; split; [reflexivity|]. destruct (alive s v); [discriminate|reflexivity]. Qed.
Lemma winv_step : forall h s o s' r, winv h s -> wstep s o = Some (s', r) -> winv (h ++ [o]) s'.
Proof.
  intros h s o s' r I E. destruct o as [[k|] [v|]|[k|]|k ds|x|i]; cbn [wstep] in E.
  - (* store *)
    destruct (alive s k) eqn:Ak; [|discriminate]. destruct (alive s v) eqn:Av; [|discriminate]. cbn in E. injection E as <- <-.
    destruct I; constructor; cbn [with_data alive data due].
    + apply NoDup_dset; [exact Nat.eqb_spec|assumption].
    + intros k' v' G A B. rewrite (dget_dset Nat.eqb Nat.eqb_spec) in G. apply bound_snoc. destruct (Nat.eqb_spec k' k) as [->|D].
      * injection G as ->. left; reflexivity.
      * right; split; [apply w_sound0; assumption|cbn; congruence].
    + intros k' v' B. apply bound_snoc in B. destruct B as [B|(B & _)]; [injection B as <- <-; auto|apply w_alive0; exact B].
    + intros k' v' G A. rewrite (dget_dset Nat.eqb Nat.eqb_spec) in G. destruct (Nat.eqb_spec k' k) as [->|D]; [congruence|apply (w_deadk0 _ _ G A)].
    + intros k' v' G A B. rewrite (dget_dset Nat.eqb Nat.eqb_spec) in G. destruct (Nat.eqb_spec k' k) as [->|D]; [congruence|apply (w_deadv0 _ _ G A B)].
    + exact w_kdue0.
  - injection E as <- <-. apply winv_skip; [exact I|cbn; tauto|discriminate].
  - injection E as <- <-. apply winv_skip; [exact I|cbn; tauto|discriminate].
  - injection E as <- <-. apply winv_skip; [exact I|cbn; tauto|discriminate].
  - (* delete *)
    destruct (alive s k) eqn:Ak; [|discriminate]. destruct (dmem Nat.eqb (data s) k) eqn:M; injection E as <- <-.
    + apply (winv_del h s (WDel (Obj k)) k); auto; cbn; try congruence; discriminate.
    + apply winv_skip; [exact I| |discriminate]. intros k' v G _ _; cbn. intros <-. rewrite (dmem_false Nat.eqb Nat.eqb_spec) in M. apply M.
      apply (dget_In Nat.eqb Nat.eqb_spec) in G. apply in_map_iff; exists (k, v); auto.
  - injection E as <- <-. apply winv_skip; [exact I|cbn; tauto|discriminate].
  - (* pop *)
    destruct ds as [|d [|d' ds]].
    + destruct k as [k|]; [|injection E as <- <-; apply winv_skip; [exact I|cbn; tauto|discriminate]].
      destruct (alive s k) eqn:Ak; [|discriminate]. destruct (wget s k) as [v|] eqn:G; injection E as <- <-.
      * apply (winv_del h s (WPop (Obj k) []) k); auto; cbn; try congruence; discriminate.
      * apply winv_skip; [exact I| |discriminate]. intros k' v G' A B; cbn. intros <-. apply wget_None in G. destruct G as [G|(w & G & D)]; congruence.
    + destruct k as [k|]; [|injection E as <- <-; apply winv_skip; [exact I|cbn; tauto|discriminate]].
      destruct (alive s k) eqn:Ak; [|discriminate]. destruct (wget s k) as [v|] eqn:G; injection E as <- <-.
      * apply (winv_del h s (WPop (Obj k) [d]) k); auto; cbn; try congruence; discriminate.
      * apply winv_skip; [exact I| |discriminate]. intros k' v G' A B; cbn. intros <-. apply wget_None in G. destruct G as [G|(w & G & D)]; congruence.
    + injection E as <- <-. apply winv_skip; [exact I|destruct k; cbn; tauto|discriminate].
  - (* a death *)
    destruct (alive s x) eqn:Ax; [|discriminate]. injection E as <- <-. destruct I; constructor; cbn [alive data due].
    + assumption.
    + intros k v G A B. destruct (Nat.eqb_spec k x); [discriminate|]. destruct (Nat.eqb_spec v x); [discriminate|].
      apply bound_snoc; right; split; [apply w_sound0; assumption|cbn; intros [|]; congruence].
    + intros k v B. apply bound_snoc in B. destruct B as [B|(B & T)]; [discriminate|]. cbn in T. destruct (w_alive0 k v B).
      destruct (Nat.eqb_spec k x); [elim T; left; congruence|]. destruct (Nat.eqb_spec v x); [elim T; right; congruence|]. auto.
    + intros k v G A. apply in_or_app. destruct (Nat.eqb_spec k x) as [->|D]; [right|left; apply (w_deadk0 k v G A)].
      apply (callbacks_key x _ v), (dget_In Nat.eqb Nat.eqb_spec), G.
    + intros k v G A B. apply in_or_app. destruct (Nat.eqb_spec k x) as [->|D]; [discriminate|]. destruct (Nat.eqb_spec v x) as [->|D'].
      * right. apply callbacks_val, (dget_In Nat.eqb Nat.eqb_spec), G.
      * left. apply (w_deadv0 k v G A B).
    + intros k J. apply in_app_or in J. destruct (Nat.eqb_spec k x) as [->|D]; [reflexivity|]. destruct J as [J|J]; [apply w_kdue0, J|].
      apply callbacks_only in J. destruct J as [J|(? & J & _)]; [injection J as ->; elim D; reflexivity|discriminate].
  - (* a callback *)
    destruct (take_nth (due s) i) as [[c q]|] eqn:T; [|discriminate]. apply take_nth_In in T. destruct T as (T1 & T2 & T3).
    assert (REM : forall k, (forall v, nget (data s) k = Some v -> alive s k = true -> alive s v = true -> bound (h ++ [WCb i]) k v) -> 
      (c = KeyGone k \/ (c = ValGone k /\ alive s k = true)) -> winv (h ++ [WCb i]) (mkW (alive s) (ndel (data s) k) q)).
    { intros k _ Ck. destruct I; constructor; cbn [alive data due].
      - apply NoDup_ddel; assumption.
      - intros k' v G A B. apply (ndel_sub _ _ _ _ w_nodup0) in G; destruct G as (D & G). apply bound_snoc; right; split; [apply w_sound0; assumption|cbn; tauto].
      - intros k' v B. apply bound_snoc in B. destruct B as [B|(B & _)]; [discriminate|apply w_alive0; exact B].
      - intros k' v G A. apply (ndel_sub _ _ _ _ w_nodup0) in G; destruct G as (D & G). destruct (T2 _ (w_deadk0 k' v G A)) as [E'|J]; [|exact J].
        destruct Ck as [Ck|(Ck & _)]; congruence.
      - intros k' v G A B. apply (ndel_sub _ _ _ _ w_nodup0) in G; destruct G as (D & G). destruct (T2 _ (w_deadv0 k' v G A B)) as [E'|J]; [|exact J].
        destruct Ck as [Ck|(Ck & _)]; congruence.
      - intros k' J; apply w_kdue0, T3, J. }
    assert (KEEP : (forall k v, c = KeyGone k -> nget (data s) k = Some v -> False) -> (forall k v, c = ValGone k -> alive s k = true -> nget (data s) k = Some v -> False) -> winv (h ++ [WCb i]) (mkW (alive s) (data s) q)).
    { intros K1 K2. destruct I; constructor; cbn [alive data due].
      - assumption.
      - intros k' v G A B. apply bound_snoc; right; split; [apply w_sound0; assumption|cbn; tauto].
      - intros k' v B. apply bound_snoc in B. destruct B as [B|(B & _)]; [discriminate|apply w_alive0; exact B].
      - intros k' v G A. destruct (T2 _ (w_deadk0 k' v G A)) as [E'|J]; [|exact J]. elim (K1 _ _ (eq_sym E') G).
      - intros k' v G A B. destruct (T2 _ (w_deadv0 k' v G A B)) as [E'|J]; [|exact J]. elim (K2 _ _ (eq_sym E') A G).
      - intros k' J; apply w_kdue0, T3, J. }
    assert (BC : forall k v, nget (data s) k = Some v -> alive s k = true -> alive s v = true -> bound (h ++ [WCb i]) k v).
    { intros k v G A B. apply bound_snoc; right; split; [apply (w_sound _ _ I); assumption|cbn; tauto]. }
    destruct c as [k|k].
    + injection E as <- <-. apply REM; [apply BC|left; reflexivity].
    + destruct (alive s k) eqn:Ak; [destruct (dmem Nat.eqb (data s) k) eqn:M|]; injection E as <- <-.
      * apply REM; [apply BC|right; auto].
      * apply KEEP; [discriminate|]. intros k' v C A G. injection C as <-. rewrite (dmem_false Nat.eqb Nat.eqb_spec) in M. apply M.
        apply (dget_In Nat.eqb Nat.eqb_spec) in G. apply in_map_iff; exists (k, v); auto.
      * apply KEEP; [discriminate|]. intros k' v C A G. injection C as <-. congruence.
Qed.
Lemma winv_run : forall h2 h1 s s', winv h1 s -> wrun s h2 = Some s' -> winv (h1 ++ h2) s'.
Proof.
  induction h2 as [|o h2 IH]; intros h1 s s' I E; cbn [wrun] in E.
  - injection E as <-; rewrite app_nil_r; exact I.
  - destruct (wstep s o) as [[s1 r]|] eqn:E1; [|discriminate]. change (h1 ++ o :: h2) with (h1 ++ [o] ++ h2). rewrite app_assoc. apply (IH _ s1); [apply (winv_step _ s _ _ r); assumption|exact E].
Qed.

(** Without interference nothing bound is lost. *)
Record wfull (h : list wop) (s : wstate) : Prop := mkWF {
  f_bound : forall k v, bound h k v -> nget (data s) k = Some v;
  f_vdue : forall k v, In (ValGone k) (due s) -> nget (data s) k = Some v -> alive s k = true -> alive s v = false
}.
Lemma wfull_step : forall h s o s' r, winv h s -> wfull h s -> (match o with WCb _ => True | _ => due s = [] end) -> wstep s o = Some (s', r) -> wfull (h ++ [o]) s'.
Proof.
  intros h s o s' r I F Q E. destruct F as [FB FV].
  assert (SKIP : forall o', s' = s -> o = o' -> (forall a b, o' <> WSet (Obj a) (Obj b)) -> wfull (h ++ [o]) s').
  { intros o' -> -> NS. constructor; [|exact FV]. intros k v B. apply bound_snoc in B. destruct B as [B|(B & _)]; [elim (NS _ _ B)|apply FB, B]. }
  assert (DEL : forall k, s' = with_data s (ndel (data s) k) -> due s = [] -> (forall v, touches o k v) -> (forall a b, o <> WSet a b) -> wfull (h ++ [o]) s').
  { intros k -> D T NS. constructor; cbn [with_data data due alive].
    - intros k' v B. apply bound_snoc in B. destruct B as [B|(B & NT)]; [elim (NS _ _ B)|].
      destruct (Nat.eq_dec k k') as [->|N]; [elim NT; apply T|]. rewrite nother by exact N. apply FB, B.
    - rewrite D; intros k' v []. }
  destruct o as [[k|] [v|]|[k|]|k ds|x|i]; cbn [wstep] in E.
  - destruct (alive s k) eqn:Ak; [|discriminate]. destruct (alive s v) eqn:Av; [|discriminate]. cbn in E. injection E as <- <-.
    constructor; cbn [with_data data due alive]; [|rewrite Q; intros k' v' []].
    intros k' v' B. rewrite (dget_dset Nat.eqb Nat.eqb_spec). apply bound_snoc in B. destruct B as [B|(B & T)].
    + injection B as <- <-. rewrite Nat.eqb_refl; reflexivity.
    + destruct (Nat.eqb_spec k' k) as [->|D]; [elim T; reflexivity|apply FB, B].
  - injection E as <- <-. apply (SKIP _ eq_refl eq_refl); discriminate.
  - injection E as <- <-. apply (SKIP _ eq_refl eq_refl); discriminate.
  - injection E as <- <-. apply (SKIP _ eq_refl eq_refl); discriminate.
  - destruct (alive s k) eqn:Ak; [|discriminate]. destruct (dmem Nat.eqb (data s) k) eqn:M; injection E as <- <-.
    + apply (DEL k); [reflexivity|exact Q|reflexivity|discriminate].
    + apply (SKIP _ eq_refl eq_refl); discriminate.
  - injection E as <- <-. apply (SKIP _ eq_refl eq_refl); discriminate.
  - destruct ds as [|d [|d' ds]]; [..|injection E as <- <-; apply (SKIP _ eq_refl eq_refl); discriminate];
      (destruct k as [k|]; [|injection E as <- <-; apply (SKIP _ eq_refl eq_refl); discriminate]);
      (destruct (alive s k) eqn:Ak; [|discriminate]); (destruct (wget s k) as [v|] eqn:G; injection E as <- <-;
        [apply (DEL k); [reflexivity|exact Q|reflexivity|discriminate]|apply (SKIP _ eq_refl eq_refl); discriminate]).
  - destruct (alive s x) eqn:Ax; [|discriminate]. injection E as <- <-. constructor; cbn [data due alive].
    + intros k v B. apply bound_snoc in B. destruct B as [B|(B & _)]; [discriminate|apply FB, B].
    + rewrite Q; cbn [app]. intros k v J G A. apply callbacks_only in J. destruct J as [J|(k' & J & J2)]; [discriminate|]. injection J as <-.
      apply (In_dget Nat.eqb Nat.eqb_spec) in J2; [|apply (w_nodup _ _ I)]. assert (v = x) by congruence. subst. rewrite Nat.eqb_refl; reflexivity.
  - destruct (take_nth (due s) i) as [[c q]|] eqn:T; [|discriminate]. apply take_nth_In in T. destruct T as (T1 & T2 & T3).
    assert (KEEP : s' = mkW (alive s) (data s) q -> wfull (h ++ [WCb i]) s').
    { intros ->. constructor; cbn [data due alive]; [|intros k v J; apply FV, T3, J].
      intros k v B. apply bound_snoc in B. destruct B as [B|(B & _)]; [discriminate|apply FB, B]. }
    assert (REM : forall k, s' = mkW (alive s) (ndel (data s) k) q -> (c = KeyGone k \/ c = ValGone k /\ alive s k = true) -> wfull (h ++ [WCb i]) s').
    { intros k -> Ck. constructor; cbn [data due alive].
      - intros k' v B. apply bound_snoc in B. destruct B as [B|(B & _)]; [discriminate|]. pose proof (FB _ _ B) as G. destruct (w_alive _ _ I _ _ B) as (A1 & A2).
        destruct (Nat.eq_dec k k') as [->|N]; [|rewrite nother by exact N; exact G]. exfalso. destruct Ck as [->|(-> & A)].
        + rewrite (w_kdue _ _ I _ T1) in A1; discriminate.
        + rewrite (FV _ _ T1 G A) in A2; discriminate.
      - intros k' v J G. apply (ndel_sub _ _ _ _ (w_nodup _ _ I)) in G; destruct G as (_ & G). apply (FV k' v (T3 _ J) G). }
    destruct c as [k|k].
    + injection E as <- <-. apply (REM k); [reflexivity|left; reflexivity].
    + destruct (alive s k) eqn:Ak; [destruct (dmem Nat.eqb (data s) k) eqn:M|]; injection E as <- <-; [apply (REM k); [reflexivity|right; auto]|apply KEEP; reflexivity..].
Qed.
Lemma wfull_run : forall h2 h1 s s', winv h1 s -> wfull h1 s -> undisturbed s h2 -> wrun s h2 = Some s' -> wfull (h1 ++ h2) s'.
Proof.
  induction h2 as [|o h2 IH]; intros h1 s s' I F U E; cbn [wrun] in E.
  - injection E as <-; rewrite app_nil_r; exact F.
  - cbn [undisturbed] in U. destruct U as (U1 & U2). destruct (wstep s o) as [[s1 r]|] eqn:E1; [|discriminate].
    change (h1 ++ o :: h2) with (h1 ++ [o] ++ h2). rewrite app_assoc.
    apply (IH _ s1); [apply (winv_step _ s _ _ r); assumption|apply (wfull_step _ s _ _ r); assumption|exact U2|exact E].
Qed.
Lemma wfull_start : wfull [] wstart.
Proof. constructor; [intros k v ([|? ?] & ? & E & _); discriminate|intros k v []]. Qed.

(** ** Theorems *)
(** Whatever happens when, concurrently or not: what is found under a key is what was last stored there, and is alive. *)
Theorem C48_sound : forall h s k v, wrun wstart h = Some s -> alive s k = true -> wget s k = Some v -> bound h k v /\ alive s v = true.
Proof.
  intros h s k v E A G. pose proof (winv_run h [] _ _ winv_start E) as I. cbn in I. unfold wget in G.
  destruct (nget (data s) k) as [x|] eqn:N; [|discriminate]. destruct (alive s x) eqn:Ax; [|discriminate]. injection G as ->. split; [apply (w_sound _ _ I); assumption|exact Ax].
Qed.
(** Whatever happens when: as soon as no callback is due, no entry of a dead key or value is left. *)
Theorem C48_clean : forall h s, wrun wstart h = Some s -> due s = [] -> forall k v, In (k, v) (data s) -> alive s k = true /\ alive s v = true /\ bound h k v.
Proof.
  intros h s E D k v J. pose proof (winv_run h [] _ _ winv_start E) as I. cbn in I. apply (In_dget Nat.eqb Nat.eqb_spec) in J; [|apply (w_nodup _ _ I)].
  destruct (alive s k) eqn:Ak; [|apply (w_deadk _ _ I) in J; [rewrite D in J; destruct J|exact Ak]].
  destruct (alive s v) eqn:Av; [|apply (w_deadv _ _ I) in J; [rewrite D in J; destruct J|exact Ak|exact Av]].
  split; [reflexivity|split; [reflexivity|apply (w_sound _ _ I); assumption]].
Qed.
(** Without interference it is the map of the bindings: every question is answered accordingly, once the callbacks have run. *)
Theorem C48_map : forall h s, wrun wstart h = Some s -> undisturbed wstart h -> due s = [] ->
  (forall k v, wget s k = Some v <-> bound h k v) /\
  (forall k v, wgetitem s k = Ok v <-> bound h k v) /\
  (forall k, wcontains s k = true <-> exists v, bound h k v) /\
  (NoDup (wkeys s) /\ forall k, In k (wkeys s) <-> exists v, bound h k v) /\
  wlen s = length (wkeys s) /\
  (forall v, In v (wvalues s) <-> exists k, bound h k v).
Proof.
  intros h s E U D. pose proof (winv_run h [] _ _ winv_start E) as I. pose proof (wfull_run h [] _ _ winv_start wfull_start U E) as F. cbn in I, F.
  pose proof (C48_clean h s E D) as CL.
  assert (B : forall k v, nget (data s) k = Some v <-> bound h k v).
  { intros k v; split; [intros G; apply CL; apply (dget_In Nat.eqb Nat.eqb_spec), G|apply (f_bound _ _ F)]. }
  assert (FA : forall l, (forall x, In x l -> alive s x = true) -> filter (alive s) l = l).
  { induction l as [|x l IH]; intros H; cbn; [reflexivity|]. rewrite (H x) by (left; reflexivity). rewrite IH; [reflexivity|intros y Iy; apply H; right; exact Iy]. }
  assert (K1 : wkeys s = dkeys (data s)) by (apply FA; intros x J; apply in_map_iff in J; destruct J as ((a & b) & <- & J); apply (CL a b J)).
  assert (V1 : wvalues s = dvals (data s)) by (apply FA; intros x J; apply in_map_iff in J; destruct J as ((a & b) & <- & J); apply (CL a b J)).
  assert (W : forall k v, wget s k = Some v <-> bound h k v).
  { intros k v. rewrite <- B. unfold wget. destruct (nget (data s) k) as [x|] eqn:G; [|tauto].
    apply (dget_In Nat.eqb Nat.eqb_spec) in G. destruct (CL _ _ G) as (_ & -> & _). tauto. }
  split; [exact W|split].
  - intros k v. rewrite <- W. unfold wgetitem. destruct (wget s k); split; intros X; try discriminate; injection X as ->; reflexivity.
  - assert (KB : forall k, In k (dkeys (data s)) <-> exists v, bound h k v).
    { intros k. split.
      - intros J. apply in_map_iff in J. destruct J as ((a & b) & <- & J). exists b. apply CL, J.
      - intros (v & X). apply B in X. apply (dget_In Nat.eqb Nat.eqb_spec) in X. apply in_map_iff. exists (k, v); auto. }
    split; [|split; [|split]].
    + intros k. rewrite <- KB. unfold wcontains. apply (dmem_true Nat.eqb Nat.eqb_spec).
    + rewrite K1. split; [apply (w_nodup _ _ I)|exact KB].
    + rewrite K1. unfold wlen, dkeys. rewrite map_length; reflexivity.
    + intros v. rewrite V1. unfold dvals. rewrite in_map_iff. split.
      * intros ((a & b) & <- & J). exists a. apply CL, J.
      * intros (k & X). apply B, (dget_In Nat.eqb Nat.eqb_spec) in X. exists (k, v); auto.
Qed.
(** What the operations answer. *)
Theorem C48_answers : forall h s, wrun wstart h = Some s -> undisturbed wstart h -> due s = [] -> forall k, alive s k = true ->
  ((exists v, bound h k v) -> exists s', wstep s (WDel (Obj k)) = Some (s', Ok Done)) /\
  ((forall v, ~ bound h k v) -> wstep s (WDel (Obj k)) = Some (s, Err EKeyError)) /\
  (forall v ds, bound h k v -> length ds <= 1 -> exists s', wstep s (WPop (Obj k) ds) = Some (s', Ok (Value v))) /\
  ((forall v, ~ bound h k v) -> wstep s (WPop (Obj k) []) = Some (s, Err EKeyError) /\ forall d, wstep s (WPop (Obj k) [d]) = Some (s, Ok (Value d))) /\
  (forall ds, 1 < length ds -> wstep s (WPop (Obj k) ds) = Some (s, Err ETypeError)) /\
  (forall a, wstep s (WSet a NotWeak) = Some (s, Err ETypeError) /\ wstep s (WSet NotWeak a) = Some (s, Err ETypeError)).
Proof.
  intros h s E U D k A. destruct (C48_map h s E U D) as (W & _ & C & _). split; [|split; [|split; [|split; [|split]]]].
  - intros X. apply C in X. cbn [wstep]. unfold wcontains in X. rewrite A, X. eexists; reflexivity.
  - intros X. cbn [wstep]. rewrite A. destruct (dmem Nat.eqb (data s) k) eqn:M; [|reflexivity]. exfalso. destruct (proj1 (C k) M) as (v & B). apply (X v B).
  - intros v ds B L. apply W in B. cbn [wstep]. rewrite A, B. destruct ds as [|d [|d' ds]]; [eexists; reflexivity..|cbn in L; lia].
  - intros X. assert (G : wget s k = None) by (destruct (wget s k) as [v|] eqn:G; [apply W in G; elim (X v G)|reflexivity]). cbn [wstep]. rewrite A, G. split; reflexivity.
  - intros ds L. destruct ds as [|d [|d' ds]]; cbn in L; try lia. reflexivity.
  - intros [a|]; split; reflexivity.
Qed.

(** With several threads an entry can get lost: the callback of a dead value deletes what another thread has just stored under the same key. *)
Theorem C48_concurrent_map_refuted : ~ forall h s, wrun wstart h = Some s -> due s = [] -> forall k v, bound h k v -> wget s k = Some v.
Proof.
  intros H. specialize (H [WSet (Obj 0) (Obj 1); WDie 1; WSet (Obj 0) (Obj 2); WCb 0] _ eq_refl eq_refl 0 2).
  assert (X : None = Some 2); [|discriminate]. apply H. exists [WSet (Obj 0) (Obj 1); WDie 1], [WCb 0]. split; [reflexivity|]. intros o [<-|[]]; cbn; tauto.
Qed.
(** And the callback can end in a KeyError, if the key was deleted in the meantime. *)
Example ex_callback_error : match wrun wstart [WSet (Obj 0) (Obj 1); WDie 1; WDel (Obj 0)] with
  | Some s => match wstep s (WCb 0) with Some (_, r) => Some r | None => None end | None => None end = Some (Ok (Ignored EKeyError)).
Proof. reflexivity. Qed.
(** items(), at any moment, if the living values can be called: a pair for every living key with a living value, and none twice. *)
Theorem C48_items : forall h s call, wrun wstart h = Some s -> (forall v, alive s v = true -> exists x, call v = Ok x) ->
  exists l, witems call s = Ok l /\ NoDup (map fst l) /\
    forall k x, In (k, x) l <-> alive s k = true /\ exists v, wget s k = Some v /\ call v = Ok x.
Proof.
  intros h s call E C. pose proof (w_nodup _ _ (winv_run h [] _ _ winv_start E)) as N.
  assert (G : forall ks, NoDup ks -> exists l, witems_of call s ks = Ok l /\ NoDup (map fst l) /\
    forall k x, In (k, x) l <-> In k ks /\ exists v, wget s k = Some v /\ call v = Ok x).
  { induction ks as [|k ks IH]; intros D.
    - exists []; split; [reflexivity|split; [constructor|]]. intros k x; split; [intros []|intros ([] & _)].
    - inversion D as [|? ? NI D']; subst. destruct (IH D') as (l & El & Nl & Il). cbn [witems_of]. destruct (wget s k) as [v|] eqn:W.
      + assert (A : alive s v = true).
        { unfold wget in W. destruct (nget (data s) k) as [u|]; [|discriminate W]. destruct (alive s u) eqn:A; [|discriminate W]. injection W as <-; exact A. }
        destruct (C v A) as (x & X). rewrite X, El. cbn [bindR]. eexists; split; [reflexivity|]. split.
        * cbn [map fst]. constructor; [|exact Nl]. intros J. apply in_map_iff in J. destruct J as ((k', y) & <- & J). apply Il in J. apply NI, J.
        * intros k' y; split.
          -- intros [Q|J]; [injection Q as <- <-; split; [left; reflexivity|exists v; auto]|]. apply Il in J. destruct J as (J & R). split; [right; exact J|exact R].
          -- intros ([<-|J] & R); [|right; apply Il; split; assumption]. destruct R as (u & U & V). left. congruence.
      + exists l; split; [exact El|split; [exact Nl|]]. intros k' x; rewrite Il; split.
        * intros (J & R); split; [right; exact J|exact R].
        * intros ([<-|J] & R); [|split; assumption]. destruct R as (u & U & _). congruence. }
  destruct (G (wkeys s)) as (l & El & Nl & Il); [apply NoDup_filter, N|]. exists l; split; [exact El|split; [exact Nl|]].
  intros k x; rewrite Il. unfold wkeys. rewrite filter_In. split; [tauto|]. intros (A & v & W & X). split; [|exists v; auto]. split; [|exact A].
  unfold wget in W. destruct (nget (data s) k) as [u|] eqn:Q; [|discriminate W]. apply (dget_In Nat.eqb Nat.eqb_spec) in Q. apply in_map_iff. exists (k, u); auto.
Qed.
(** A value has died and its callback is still due: the entry is passed over. *)
Example ex_items : option_map (witems (fun v => Ok (10 + v))) (wrun wstart [WSet (Obj 0) (Obj 1); WSet (Obj 2) (Obj 3); WDie 1]) = Some (Ok [(2, 13)]).
Proof. reflexivity. Qed.
(** items() gives pairs of a key and what calling its value returns, and raises if the value is not callable. *)
Theorem C48_items_refuted : ~ forall call s, wrun wstart [WSet (Obj 0) (Obj 1)] = Some s -> witems call s = Ok [(0, 1)].
Proof. intros H. specialize (H (fun _ => Err ETypeError) _ eq_refl). discriminate. Qed.
Example ex_weak : undisturbed wstart [WSet (Obj 0) (Obj 1); WSet (Obj 2) (Obj 0); WSet (Obj 0) (Obj 3); WDie 1; WSet (Obj 4) (Obj 4); WDie 0; WCb 1; WCb 0; WDie 4; WCb 0; WCb 0] /\
  option_map data (wrun wstart [WSet (Obj 0) (Obj 1); WSet (Obj 2) (Obj 0); WSet (Obj 0) (Obj 3); WDie 1; WSet (Obj 4) (Obj 4); WSet (Obj 5) (Obj 6); WDie 0; WCb 1; WCb 0; WDie 4; WCb 0; WCb 0]) = Some [(5, 6)].
Proof. split; [cbn; tauto|reflexivity]. Qed.

Print Assumptions C48_sound.
Print Assumptions C48_clean.
Print Assumptions C48_map.
Print Assumptions C48_answers.
Print Assumptions C48_concurrent_map_refuted.
Print Assumptions C48_items_refuted.
Print Assumptions C48_items.
