(** Theorems about calls of logged and unlogged functions and message() (C24 - C28). *)
From Coq Require Import Relations Lia.
From Verif Require Import Base Handle_Model Handle_Spec Handle_Proofs Handle_Props Supp_Model Call_Model Call_Spec Call_Proofs Call_Inv Call_Struct Call_Sim.
Local Open Scope string_scope.
Local Open Scope list_scope.

(** * C24: unlog *)

(** An order of unlog that switches logging off under the settings c. *)
Definition silences (c : cfg) (g : option bool) : Prop := g = Some true \/ (g = None /\ c_full c = true).

Lemma steady : forall (A : Type) (g : cfg -> A) c c', clos_refl_trans_1n cfg (fun a b => g b = g a) c c' -> g c' = g c.
Proof. intros A g c c' H; induction H as [|x y z E _ IH]; [reflexivity|congruence]. Qed.

Lemma order_kept : forall (P : option bool -> Prop) a g, P g -> (forall e, In e a -> e <> EOn /\ forall h, e = EOff h -> P h) ->
  exists h, fold_left off_step a (Some g) = Some h /\ P h.
Proof.
  intros P; induction a as [|e r IH]; intros g Hg H; [cbn; eauto|]; cbn [fold_left].
  destruct (H e (or_introl eq_refl)) as [N1 N2].
  assert (Hr : forall x, In x r -> x <> EOn /\ forall h, x = EOff h -> P h) by (intros x Hx; apply H; right; exact Hx).
  destruct e; cbn [off_step]; try exact (IH g Hg Hr); [exact (IH full (N2 _ eq_refl) Hr)|contradiction].
Qed.

(** C24: while a function decorated with full unlog runs, no record of any kind is written before a nested unlogged call
    has returned or an unlogged call with a different order has begun. *)
Theorem C24_silence_inside : forall W body s s' o, exec W body (set_unl s (Some (Some true))) = (s', o) ->
  exists new, tr s' = tr s ++ new /\
    forall a k f b, new = a ++ ERec k f :: b -> exists e, In e a /\ (e = EOn \/ exists g, e = EOff g /\ g <> Some true).
Proof.
  intros W body s s' o H; destruct (exec_grown W (fun _ _ => True) body (confs_any body) _ _ _ H) as [new G].
  exists new; split; [apply (g_tr _ _ _ _ _ G)|].
  intros a k f b E; destruct (g_rec _ _ _ _ _ G a k f b E) as [x [_ [Off [U _]]]]; cbn [unl set_unl] in U.
  destruct (Exists_dec (fun e => e = EOn \/ exists g, e = EOff g /\ g <> Some true) a) as [X|X].
  - intros e; destruct e as [n|k0 f0|n o0|[[|]|]| |f0|n]; try (right; intros [Z|[g [Z _]]]; discriminate); auto.
    + right; intros [Z|[g [Z Z2]]]; [discriminate|injection Z as <-; apply Z2; reflexivity].
    + left; right; eexists; split; [reflexivity|discriminate].
    + left; right; eexists; split; [reflexivity|discriminate].
  - apply Exists_exists in X; exact X.
  - exfalso; destruct (order_kept (fun g => g = Some true) a (Some true) eq_refl) as [h [Eh ->]].
    + intros e He; split; [intros ->; apply X; apply Exists_exists; exists EOn; auto|].
      intros h ->; destruct h as [[|]|]; [reflexivity| |]; exfalso; apply X; apply Exists_exists; eexists; (split; [exact He|right; eexists; split; [reflexivity|discriminate]]).
    + rewrite Eh in U; unfold is_off in Off; rewrite U in Off; discriminate.
Qed.

(** The same when the order is left to the setting full_unlog, for programs that do not change it. *)
Theorem C24_silence_inside_setting : forall W body s s' o g, silences (cf s) g ->
  confs (fun c c' => c_full c' = c_full c) body -> exec W body (set_unl s (Some g)) = (s', o) ->
  exists new, tr s' = tr s ++ new /\
    forall a k f b, new = a ++ ERec k f :: b -> exists e, In e a /\ (e = EOn \/ exists h, e = EOff h /\ ~ silences (cf s) h).
Proof.
  intros W body s s' o g Sg C H; destruct (exec_grown W _ body C _ _ _ H) as [new G].
  exists new; split; [apply (g_tr _ _ _ _ _ G)|].
  intros a k f b E; destruct (g_rec _ _ _ _ _ G a k f b E) as [x [_ [Off [U [_ [Cx _]]]]]]; cbn [unl set_unl cf] in U, Cx.
  assert (Dec : forall h, {silences (cf s) h} + {~ silences (cf s) h}).
  { intros [[|]|]; [left; left; reflexivity|right; intros [Z|[Z _]]; discriminate|].
    destruct (c_full (cf s)) eqn:F; [left; right; auto|right; intros [Z|[_ Z]]; congruence]. }
  destruct (Exists_dec (fun e => e = EOn \/ exists h, e = EOff h /\ ~ silences (cf s) h) a) as [X|X].
  - intros e; destruct e as [n|k0 f0|n o0|h| |f0|n]; try (right; intros [Z|[h0 [Z _]]]; discriminate); auto.
    destruct (Dec h) as [D|D]; [right; intros [Z|[h0 [Z Z2]]]; [discriminate|injection Z as <-; contradiction]|left; right; eauto].
  - apply Exists_exists in X; exact X.
  - exfalso; destruct (order_kept (silences (cf s)) a g Sg) as [h [Eh Sh]].
    + intros e He; split; [intros ->; apply X; apply Exists_exists; exists EOn; auto|].
      intros h ->; destruct (Dec h) as [D|D]; [exact D|]; exfalso; apply X; apply Exists_exists; eexists; (split; [exact He|right; eauto]).
    + rewrite Eh in U; unfold is_off in Off; rewrite U in Off.
      destruct Sh as [->|[-> F]]; [discriminate|].
      rewrite (steady _ c_full _ _ Cx) in Off; congruence.
Qed.

(** C24: whether logging is off depends only on the last beginning or end of an unlogged call, wherever the program is. *)
Theorem C24_status_is_the_last_order : forall W q c s o, exec W q (start c) = (s, o) ->
  (logging_off s <-> exists g, off_order (tr s) = Some g /\ silences (cf s) g) /\
  forall a k f b, tr s = a ++ ERec k f :: b -> off_order a <> Some (Some true).
Proof.
  intros W q c s o H; destruct (exec_grown W (fun _ _ => True) q (confs_any q) _ _ _ H) as [new G].
  pose proof (g_tr _ _ _ _ _ G) as T; cbn in T; pose proof (g_unl _ _ _ _ _ G) as U; cbn in U.
  split.
  - unfold logging_off, off_order; rewrite T, <- U; unfold silences; split.
    + intros [Z|[Z F]]; rewrite Z; eexists; split; try reflexivity; auto.
    + intros [g [Z [->|[-> F]]]]; [left; exact Z|right; auto].
  - intros a k f b E; rewrite T in E; destruct (g_rec _ _ _ _ _ G a k f b E) as [x [_ [Off [Ux _]]]]; cbn in Ux.
    unfold off_order; rewrite <- Ux; intros Z; unfold is_off in Off; rewrite Z in Off; discriminate.
Qed.

(** C24: when an unlogged call has returned, logging is on, also if the caller is itself inside an unlogged call. *)
Theorem C24_on_after_return : forall W g body k s, exists s1 o, exec W body (set_unl (emit s (EOff g)) (Some g)) = (s1, o) /\
  exec W (Unlogged g body k) s = exec W (k o) (set_unl (emit s1 EOn) None) /\ ~ logging_off (set_unl (emit s1 EOn) None).
Proof.
  intros W g body k s; cbn [exec]; destruct (exec W body _) as [s1 o]; exists s1, o; split; [reflexivity|split; [reflexivity|]].
  intros [Z|[Z _]]; discriminate.
Qed.

(** C24: unlog(full=False) does not affect what is called inside: the same events, the same outcome, the same state. *)
Theorem C24_partial_unlog_changes_nothing : forall W body s,
  let off := exec W body (set_unl s (Some (Some false))) in let on := exec W body (set_unl s None) in
  snd off = snd on /\ tr (fst off) = tr (fst on) /\ set_unl (fst off) None = set_unl (fst on) None.
Proof.
  intros W body s; cbv zeta.
  destruct (exec_shift W body (set_unl s None) (Some (Some false))) as [u [_ E]]; [right; cbn; auto|].
  change (shift (Some (Some false)) (set_unl s None)) with (set_unl s (Some (Some false))) in E; rewrite E; cbn [fst snd].
  split; [reflexivity|split; reflexivity].
Qed.

(** * C25: transparency *)

(** C25: a program returns or raises the same with its functions decorated and without, if nothing that the decorator has
    to convert to text fails and the levels given by name are registered; a suppressed exception becomes None. *)
Theorem C25_transparent : forall W q c s o t o',
  (forall v, is_ok (jone W v) = true) -> (forall a kw, is_ok (jvars W a kw) = true) -> (forall e, is_ok (estr (ce W) e) = true) ->
  layers_ok (fun p => p_level p = None \/ usable c (p_level p)) q ->
  confs (fun a b => forall n, dget String.eqb (c_levels a) n <> None -> dget String.eqb (c_levels b) n <> None) q ->
  exec W q (start c) = (s, o) -> exec W (bare (hi W) q) (start c) = (t, o') ->
  o = o' /\ cf s = cf t /\ rstack s = rstack t /\ length (fins s) = length (fins t).
Proof.
  intros W q c s o t o' H1 H2 H3 L C E1 E2.
  destruct (bare_same W H1 H2 H3 c q C L (start c) (start c)) with (s' := s) (o := o) (t' := t) (o' := o') as [[A [B [D _]]] [E _]]; auto.
  - unfold same; auto.
  - intros n Hn; exact Hn.
  - rewrite B; auto.
Qed.

(** C25: for a single call: the outcome is that of the function with the suppressed exceptions turned into None, unless
    logging is on and the level is not usable, or the result, the arguments or the exception cannot be converted. *)
Theorem C25_outcome_of_a_call : forall W p a kw n o s s' o', after W p a kw n o s = (s', o') ->
  o' = except_for (hi W) p (cf s) o \/
  (is_off s = false /\ exists x e, o' = ORaise e /\ e_id e = 2 * nexte s + 1 /\ e_cls e = icls W x /\
    ((exists v, o = ORet v /\ (jone W v = Err x \/ (x = EKeyError /\ p_level p <> None /\ ~ usable (cf s) (p_level p)))) \/
     (exists e0, o = ORaise e0 /\ estr (ce W) e0 = Err x) \/ jvars W a kw = Err x)).
Proof.
  intros W p a kw n o s s' o' H; unfold after in H; destruct o as [v|e].
  - unfold log_normal in H; destruct (is_off s) eqn:Off; [injection H as <- <-; auto|].
    destruct (match p_level p with None => _ | Some l => _ end) as [l|x] eqn:El.
    2: { right; split; [reflexivity|]; cbn in H; injection H as <- <-.
         destruct (p_level p) as [w|] eqn:Ep; [|discriminate].
         exists x; eexists; split; [reflexivity|split; [reflexivity|split; [reflexivity|left; exists v; split; [reflexivity|right]]]].
         destruct (level_get_err _ _ _ El) as [-> N]; split; [reflexivity|split; [discriminate|]].
         intros [w' [z [Z L]]]; injection Z as ->; exact (N z L). }
    destruct (c_level (cf s) <=? l)%Z; [|injection H as <- <-; auto].
    destruct (jone W v) as [r|x] eqn:Ej.
    2: { right; split; [reflexivity|]; cbn in H; injection H as <- <-; exists x; eexists; split; [reflexivity|split; [reflexivity|split; [reflexivity|left; eauto]]]. }
    cbv zeta in H; destruct (jvars W a kw) as [iv|x] eqn:Ev; [injection H as <- <-; auto|].
    right; split; [reflexivity|]; cbn in H; injection H as <- <-; exists x; eexists; split; [reflexivity|split; [reflexivity|split; [reflexivity|auto]]].
  - destruct (e_exc e) eqn:Ee; [|injection H as <- <-; left; cbn; rewrite Ee; reflexivity].
    assert (Good : forall s1, cf s1 = cf s -> (if p_all p || is_suppressed (hi W) (cf s1) e (p_supp p) then (s1, ORet VNone) else (s1, ORaise e)) = (s', o') ->
      o' = except_for (hi W) p (cf s) (ORaise e)).
    { intros s1 Ec Z; cbn; rewrite Ee; rewrite Ec in Z; destruct (p_all p || is_suppressed (hi W) (cf s) e (p_supp p)); injection Z as _ <-; reflexivity. }
    unfold log_exception in H; destruct (is_off s) eqn:Off; [left; exact (Good s eq_refl H)|].
    destruct (negb (marked s e) || negb (c_dedup (cf s))); [|left; exact (Good s eq_refl H)].
    cbv zeta in H; destruct (c_level (cf s) <=? _)%Z; [|left; exact (Good (mark s e) eq_refl H)].
    unfold exception_to_dict in H; destruct (estr (ce W) e) as [t|x] eqn:Es; cbn [bindR] in H.
    2: { right; split; [reflexivity|]; cbn in H; injection H as <- <-; exists x; eexists; split; [reflexivity|split; [reflexivity|split; [reflexivity|eauto]]]. }
    destruct (jvars W a kw) as [iv|x] eqn:Ev.
    + left; apply (Good _) in H; [exact H|reflexivity].
    + right; split; [reflexivity|]; cbn in H; injection H as <- <-; exists x; eexists; split; [reflexivity|split; [reflexivity|split; [reflexivity|auto]]].
Qed.

(** C25: a level name that is not registered makes a successful call raise KeyError when logging is on. *)
Theorem C25_unregistered_level_raises : forall W p a kw n v s nm, is_off s = false -> p_level p = Some (VStr nm) ->
  dget String.eqb (c_levels (cf s)) nm = None ->
  after W p a kw n (ORet v) s = (bump_e s, ORaise (mkE (2 * nexte s + 1) (icls W EKeyError) true)).
Proof.
  intros W p a kw n v s nm Off Ep Hn; unfold after, log_normal; rewrite Off, Ep; cbn [level_get]; rewrite Hn; reflexivity.
Qed.

(** * C26: when a record is written *)

(** The state in which the body of a logged call begins. *)
Definition begun (s : st) : st := set_msg (emit (bump_c s) (EStart (ncall s))) None.

(** C26: a call that returned writes its record iff logging is on and its level reaches the threshold. *)
Theorem C26_success : forall W p a kw body s s1 v, exec W body (begun s) = (s1, ORet v) ->
  is_ok (jone W v) = true -> is_ok (jvars W a kw) = true -> (p_level p = None \/ usable (cf s1) (p_level p)) ->
  let s2 := fst (exec W (Logged p a kw body Done) s) in
  (exists f l, ~ logging_off s1 /\ normal_level (cf s1) (p_level p) l /\ (c_level (cf s1) <= l)%Z /\
     tr s2 = tr s1 ++ [ERec (KNorm (ncall s)) f; EEnd (ncall s) (ORet v)]) \/
  ((logging_off s1 \/ exists l, normal_level (cf s1) (p_level p) l /\ (l < c_level (cf s1))%Z) /\
     tr s2 = tr s1 ++ [EEnd (ncall s) (ORet v)]).
Proof.
  intros W p a kw body s s1 v E J1 J2 Lp; cbv zeta; cbn [exec]; fold (begun s); rewrite E.
  unfold after, log_normal; destruct (is_off s1) eqn:Off.
  - right; split; [left; apply is_off_spec; exact Off|reflexivity].
  - assert (Off' : ~ logging_off s1) by (intros Z; apply is_off_spec in Z; congruence).
    assert (Nl : exists l, normal_level (cf s1) (p_level p) l /\ match p_level p with None => Ok (c_default (cf s1)) | Some l => level_get (cf s1) l end = Ok l).
    { destruct Lp as [->|[w [z [-> L]]]]; [eexists; split; [constructor|reflexivity]|].
      exists z; split; [constructor; exact L|apply level_get_spec; exact L]. }
    destruct Nl as [l [Nl El]]; rewrite El; destruct (Z.leb_spec (c_level (cf s1)) l).
    + destruct (jone W v) as [r|]; [|discriminate]; destruct (jvars W a kw) as [iv|]; [|discriminate]; cbv zeta.
      left; eexists _, l; split; [exact Off'|split; [exact Nl|split; [assumption|]]].
      cbn [exec fst emit tr set_msg]; rewrite <- app_assoc; reflexivity.
    + right; split; [right; eauto|reflexivity].
Qed.

(** C26: a call that raised an Exception writes its record iff logging is on, the exception was not taken care of before
    (or deduplication is off) and the level of errors reaches the threshold. *)
Theorem C26_failure : forall W p a kw body s s1 e, exec W body (begun s) = (s1, ORaise e) -> e_exc e = true ->
  is_ok (estr (ce W) e) = true -> is_ok (jvars W a kw) = true ->
  let s2 := fst (exec W (Logged p a kw body Done) s) in
  let o := except_for (hi W) p (cf s1) (ORaise e) in
  let fresh := ~ In (e_id e) (marks s1) \/ c_dedup (cf s1) = false in
  (exists f l, ~ logging_off s1 /\ fresh /\ error_level (cf s1) (p_elevel p) (p_level p) l /\ (c_level (cf s1) <= l)%Z /\
     tr s2 = tr s1 ++ [ERec (KExc (ncall s) e) f; EEnd (ncall s) o]) \/
  ((logging_off s1 \/ ~ fresh \/ exists l, error_level (cf s1) (p_elevel p) (p_level p) l /\ (l < c_level (cf s1))%Z) /\
     tr s2 = tr s1 ++ [EEnd (ncall s) o]).
Proof.
  intros W p a kw body s s1 e E Ee J1 J2; cbv zeta; cbn [exec]; fold (begun s); rewrite E.
  pose proof (errors_level_spec (cf s1) (p_elevel p) (p_level p)) as El.
  unfold after; rewrite Ee; unfold log_exception, except_for; rewrite Ee; cbn [andb].
  destruct (is_off s1) eqn:Off.
  { right; split; [left; apply is_off_spec; exact Off|].
    destruct (p_all p || is_suppressed (hi W) (cf s1) e (p_supp p)); reflexivity. }
  assert (Off' : ~ logging_off s1) by (intros Z; apply is_off_spec in Z; congruence).
  assert (M : marked s1 e = true <-> In (e_id e) (marks s1)).
  { unfold marked; rewrite existsb_exists; split; [intros [x [Hx Ex]]; apply Nat.eqb_eq in Ex; subst; exact Hx|intros Hx; exists (e_id e); split; [exact Hx|apply Nat.eqb_refl]]. }
  destruct (negb (marked s1 e) || negb (c_dedup (cf s1))) eqn:D.
  - assert (F : ~ In (e_id e) (marks s1) \/ c_dedup (cf s1) = false).
    { apply Bool.orb_true_iff in D; destruct D as [D|D]; apply Bool.negb_true_iff in D; [left; intros Z; apply M in Z; congruence|auto]. }
    cbv zeta; destruct (Z.leb_spec (c_level (cf s1)) (errors_level (cf s1) (p_elevel p) (p_level p))) as [L|L].
    + unfold exception_to_dict; destruct (estr (ce W) e) as [t|]; [|discriminate]; cbn [bindR]; destruct (jvars W a kw) as [iv|]; [|discriminate].
      left; eexists _, _; split; [exact Off'|split; [exact F|split; [exact El|split; [exact L|]]]].
      cbn [cf emit set_msg mark]; destruct (p_all p || is_suppressed (hi W) (cf s1) e (p_supp p)); cbn [exec fst emit tr set_msg mark]; rewrite <- app_assoc; reflexivity.
    + right; split; [right; right; eauto|].
      cbn [cf mark]; destruct (p_all p || is_suppressed (hi W) (cf s1) e (p_supp p)); reflexivity.
  - right; split.
    + right; left; apply Bool.orb_false_iff in D; destruct D as [D1 D2]; apply Bool.negb_false_iff in D1; apply Bool.negb_false_iff in D2.
      intros [Z|Z]; [apply Z; apply M; exact D1|congruence].
    + destruct (p_all p || is_suppressed (hi W) (cf s1) e (p_supp p)); reflexivity.
Qed.

(** C26: in any program, one call of a decorated function writes at most one record. *)
Theorem C26_one_record_per_call : forall W q c s o n, exec W q (start c) = (s, o) -> count (of_call n) (tr s) <= 1.
Proof.
  intros W q c s o n H; destruct (exec_per_call W q _ _ _ H) as [new [T [_ C]]]; rewrite T.
  change (tr (start c) ++ new) with new.
  pose proof (C n) as Cn; unfold window in Cn; destruct (Nat.leb (ncall (start c)) n && Nat.ltb n (ncall s)); lia.
Qed.

(** * C27: one record for one exception *)

Lemma count_split : forall q t, count q t >= 2 -> exists a x b y c, t = a ++ x :: b ++ y :: c /\ q x = true /\ q y = true.
Proof.
  intros q; induction t as [|e r IH]; intros H; [cbn in H; lia|].
  unfold count in H; cbn in H; destruct (q e) eqn:E.
  - cbn [length] in H; assert (C : exists b y c, r = b ++ y :: c /\ q y = true).
    { clear IH; induction r as [|z r IH]; [cbn in H; lia|]; cbn in H; destruct (q z) eqn:Ez; [exists [], z, r; auto|].
      destruct (IH H) as [b [y [c [-> Hy]]]]; exists (z :: b), y, c; auto. }
    destruct C as [b [y [c [-> Hy]]]]; exists [], e, b, y, c; auto.
  - destruct (IH H) as [a [x [b [y [c [-> Q]]]]]]; exists (e :: a), x, b, y, c; auto.
Qed.

(** C27: with deduplication on, one exception gets at most one record of a failed call, and none if it is marked. *)
Theorem C27_at_most_one_record : forall W q s s' o i, confs (fun c c' => c_dedup c' = c_dedup c) q -> c_dedup (cf s) = true ->
  exec W q s = (s', o) -> exists new, tr s' = tr s ++ new /\ count (of_error i) new <= 1 /\ (In i (marks s) -> count (of_error i) new = 0).
Proof.
  intros W q s s' o i C D H; destruct (exec_grown W _ q C _ _ _ H) as [new G].
  exists new; split; [apply (g_tr _ _ _ _ _ G)|].
  assert (Key : forall a k f b, new = a ++ ERec k f :: b -> of_error i (ERec k f) = true ->
    ~ In i (marks s) /\ forall x, In x a -> of_error i x = false).
  { intros a k f b E O; destruct (g_rec _ _ _ _ _ G a k f b E) as [x [M [_ [_ [_ [Cx [I1 I2]]]]]]].
    cbn in O; destruct k as [n|n e| |j]; try discriminate; apply Nat.eqb_eq in O; subst i.
    inversion M as [|n0 e0 p t iv Hm _ _ E1 E2| |]; subst.
    assert (U : marked x e = false) by (destruct Hm as [Hm|Hm]; [exact Hm|rewrite (steady _ c_dedup _ _ Cx) in Hm; congruence]).
    assert (U' : ~ In (e_id e) (marks x)).
    { intros Z; unfold marked in U; assert (Y : existsb (Nat.eqb (e_id e)) (marks x) = true) by (apply existsb_exists; exists (e_id e); split; [exact Z|apply Nat.eqb_refl]); congruence. }
    split; [intros Z; apply U'; apply I1; exact Z|].
    intros y Hy; destruct y as [| [| m e2 | |] g | | | | |]; try reflexivity; cbn; apply Nat.eqb_neq; intros Z.
    apply U'; rewrite Z; exact (I2 _ _ _ Hy). }
  assert (Rec : forall x, of_error i x = true -> exists k f, x = ERec k f) by (intros [| [] | | | | |] Hx; try discriminate; eauto).
  split.
  - destruct (le_lt_dec (count (of_error i) new) 1) as [L|L]; [exact L|exfalso].
    destruct (count_split _ _ L) as [a [x [b [y [c [E [Hx Hy]]]]]]].
    destruct (Rec _ Hy) as [k [f ->]].
    destruct (Key (a ++ x :: b) k f c) as [_ K]; [rewrite E, <- app_assoc; reflexivity|exact Hy|].
    rewrite (K x) in Hx by (apply in_app_iff; right; left; reflexivity); discriminate.
  - intros Hi; destruct (count (of_error i) new) eqn:E; [reflexivity|exfalso].
    assert (X : exists x, In x (filter (of_error i) new)) by (unfold count in E; destruct (filter (of_error i) new) as [|x r]; [discriminate|exists x; left; reflexivity]).
    destruct X as [x Hx]; apply filter_In in Hx; destruct Hx as [Hin Ho]; destruct (Rec _ Ho) as [k [f ->]].
    apply in_split in Hin; destruct Hin as [a [b Eab]]; destruct (Key a k f b Eab Ho) as [N _]; contradiction.
Qed.

(** Functions called one inside another, the innermost raises e; nobody catches it. *)
Fixpoint chain (ps : list params) (e : eobj) : prog :=
  match ps with [] => Done (ORaise e) | p :: r => Logged p [] [] (chain r e) Done end.
(** The level of the innermost function reaches the threshold. *)
Definition reaches (c : cfg) (p : params) : bool := (c_level c <=? errors_level c (p_elevel p) (p_level p))%Z.
Definition passing (c : cfg) (ps : list params) : list params := filter (reaches c) ps.

Section Chain.
  Variable W : cenv.
  Variable e : eobj.
  Hypothesis Exc : e_exc e = true.
  Hypothesis Str : is_ok (estr (ce W) e) = true.
  Hypothesis Vars : is_ok (jvars W [] []) = true.

  Definition unsuppressed (c : cfg) (p : params) : Prop := p_all p = false /\ is_suppressed (hi W) c e (p_supp p) = false.

  Lemma log_exception_on : forall p n s, is_off s = false -> exists s1 evs, log_exception W p [] [] n e s = (s1, Ok tt) /\
    tr s1 = tr s ++ evs /\ cf s1 = cf s /\ is_off s1 = false /\
    (if negb (marked s e) || negb (c_dedup (cf s))
     then marked s1 e = true /\ (if reaches (cf s) p then exists f, evs = [ERec (KExc n e) f] else evs = [])
     else marks s1 = marks s /\ evs = []).
  Proof.
    intros p n s Off; unfold log_exception; rewrite Off; destruct (negb (marked s e) || negb (c_dedup (cf s))).
    - cbv zeta; unfold reaches; destruct (c_level (cf s) <=? _)%Z.
      + unfold exception_to_dict; destruct (estr (ce W) e) as [t|]; [|discriminate]; cbn [bindR]; destruct (jvars W [] []) as [iv|]; [|discriminate].
        eexists; eexists; split; [reflexivity|split; [reflexivity|split; [reflexivity|split; [exact Off|split; [|eexists; reflexivity]]]]].
        unfold marked; cbn; rewrite Nat.eqb_refl; reflexivity.
      + exists (mark s e), []; split; [reflexivity|split; [cbn; rewrite app_nil_r; reflexivity|split; [reflexivity|split; [exact Off|split; [|reflexivity]]]]].
        unfold marked; cbn; rewrite Nat.eqb_refl; reflexivity.
    - exists s, []; rewrite app_nil_r; auto 10.
  Qed.

  Lemma chain_run : forall ps s, is_off s = false -> Forall (unsuppressed (cf s)) ps ->
    exists s' new, exec W (chain ps e) s = (s', ORaise e) /\ tr s' = tr s ++ new /\ cf s' = cf s /\ is_off s' = false /\ ncall s' = ncall s + length ps /\
      (if c_dedup (cf s)
       then (marked s e = true -> marked s' e = true /\ count (of_error (e_id e)) new = 0) /\
            (marked s e = false -> marked s' e = (match ps with [] => false | _ => true end) /\
               count (of_error (e_id e)) new = count (fun x => of_error (e_id e) x && of_call (ncall s + length ps - 1) x) new /\
               count (of_error (e_id e)) new = match rev ps with [] => 0 | p :: _ => if reaches (cf s) p then 1 else 0 end)
       else count (of_error (e_id e)) new = length (passing (cf s) ps)).
  Proof.
    induction ps as [|p r IH]; intros s Off Un.
    - exists s, []; cbn; rewrite app_nil_r, Nat.add_0_r; repeat split; auto; destruct (c_dedup (cf s)); auto.
    - apply Forall_cons_iff in Un; destruct Un as [[U1 U2] Ur].
      cbn [chain exec].
      destruct (IH (begun s) Off Ur) as [s1 [n1 [E1 [T1 [C1 [O1 [N1 M1]]]]]]].
      unfold begun in E1, T1, C1, N1, M1; cbn [cf tr ncall marks set_msg emit bump_c] in *; rewrite E1; cbn [cf tr ncall marks set_msg emit bump_c] in *.
      change (marked (set_msg (emit (bump_c s) (EStart (ncall s))) None) e) with (marked s e) in M1.
      destruct (log_exception_on p (ncall s) s1 O1) as [s2 [evs [E2 [T2 [C2 [O2 M2]]]]]].
      unfold after; rewrite Exc, E2, U1, C2, C1, U2; cbn [orb exec].
      exists (emit s2 (EEnd (ncall s) (ORaise e))), ([EStart (ncall s)] ++ n1 ++ evs ++ [EEnd (ncall s) (ORaise e)]).
      split; [reflexivity|split; [cbn [tr emit]; rewrite T2, T1, <- !app_assoc; reflexivity|split; [cbn; congruence|split; [exact O2|]]]].
      assert (N2 : ncall s2 = ncall s1) by (pose proof (log_exception_frame W p [] [] (ncall s) e s1) as F; rewrite E2 in F; cbn in F; tauto).
      split; [cbn [ncall emit]; rewrite N2, N1; cbn; lia|].
      rewrite C1 in M2.
      assert (Cn : forall q, q (EStart (ncall s)) = false -> q (EEnd (ncall s) (ORaise e)) = false ->
        count q ([EStart (ncall s)] ++ n1 ++ evs ++ [EEnd (ncall s) (ORaise e)]) = count q n1 + count q evs).
      { intros q Q1 Q2; rewrite !count_app; unfold count; cbn [filter]; rewrite Q1, Q2; cbn; lia. }
      destruct (c_dedup (cf s)).
      + split.
        * intros Hm; destruct (proj1 M1 Hm) as [Ms Z]; rewrite Ms in M2; cbn [negb orb] in M2; destruct M2 as [M2 ->].
          split; [unfold marked in *; cbn; rewrite M2; exact Ms|rewrite Cn by reflexivity; rewrite Z; reflexivity].
        * intros Hm; destruct (proj2 M1 Hm) as [Ms [Z1 Z2]]; rewrite !Cn by reflexivity.
          destruct r as [|p2 r2].
          -- rewrite Ms in M2; cbn [negb orb] in M2; destruct M2 as [M2 M3].
             cbn [chain exec] in E1; injection E1 as <-; cbn [tr set_msg emit bump_c] in T1.
             assert (En : n1 = []) by (rewrite <- (app_nil_r (tr s ++ [EStart (ncall s)])) in T1 at 1; apply app_inv_head in T1; auto); subst n1.
             split; [exact M2|]; cbn [rev app length].
             replace (ncall s + 1 - 1) with (ncall s) by lia.
             destruct (reaches (cf s) p).
             ++ destruct M3 as [f ->]; unfold count; cbn; rewrite !Nat.eqb_refl; cbn; auto.
             ++ subst evs; cbn; auto.
          -- rewrite Ms in M2; cbn [negb orb] in M2; destruct M2 as [M2 ->].
             split; [unfold marked in *; cbn; rewrite M2; exact Ms|].
             replace (ncall s + length (p :: p2 :: r2) - 1) with (S (ncall s) + length (p2 :: r2) - 1) by (cbn; lia).
             split; [rewrite Z1; reflexivity|].
             rewrite Z2; cbn [rev]; destruct (rev r2 ++ [p2]) as [|y l] eqn:Er; [destruct (rev r2); discriminate|]; cbn; lia.
      + rewrite Cn by reflexivity; rewrite M1; unfold passing; cbn [filter].
        rewrite Bool.orb_true_r in M2; destruct M2 as [_ M2]; destruct (reaches (cf s) p).
        * destruct M2 as [f ->]; unfold count; cbn; rewrite Nat.eqb_refl; cbn; lia.
        * subst evs; cbn; lia.
  Qed.
End Chain.

(** C27: an exception that goes through any number of nested decorated functions: with deduplication on, exactly one
    record, written by the innermost call, if the level of the innermost function reaches the threshold; otherwise no
    record at all, whatever the outer levels. *)
Theorem C27_innermost_decides : forall W ps p e s, e_exc e = true -> is_ok (estr (ce W) e) = true -> is_ok (jvars W [] []) = true ->
  is_off s = false -> c_dedup (cf s) = true -> ~ In (e_id e) (marks s) ->
  Forall (fun p => p_all p = false /\ ~ listed_exception (hi W) (cf s) e (p_supp p)) (ps ++ [p]) -> hier_ok (hi W) ->
  exists s' new l, exec W (chain (ps ++ [p]) e) s = (s', ORaise e) /\ tr s' = tr s ++ new /\
    error_level (cf s) (p_elevel p) (p_level p) l /\
    ((c_level (cf s) <= l)%Z /\ count (of_error (e_id e)) new = 1 /\
       count (fun x => of_error (e_id e) x && of_call (ncall s + length ps) x) new = 1 \/
     (l < c_level (cf s))%Z /\ count (of_error (e_id e)) new = 0).
Proof.
  intros W ps p e s Exc Str Vars Off D M Un Hh.
  assert (Un' : Forall (unsuppressed W e (cf s)) (ps ++ [p])).
  { eapply Forall_impl; [|exact Un]; intros x [A B]; split; [exact A|]; destruct (is_suppressed _ _ _ _) eqn:E; [|reflexivity].
    exfalso; apply B; apply is_suppressed_spec; assumption. }
  destruct (chain_run W e Exc Str Vars (ps ++ [p]) s Off Un') as [s' [new [E [T [_ [_ [_ Q]]]]]]].
  rewrite D in Q; destruct Q as [_ Q].
  assert (M' : marked s e = false).
  { unfold marked; destruct (existsb (Nat.eqb (e_id e)) (marks s)) eqn:X; [|reflexivity]; apply existsb_exists in X; destruct X as [y [Hy Ey]]; apply Nat.eqb_eq in Ey; subst; contradiction. }
  destruct (Q M') as [_ [Q1 Q2]]; rewrite rev_app_distr in Q2; cbn [rev app] in Q2.
  exists s', new, (errors_level (cf s) (p_elevel p) (p_level p)); split; [exact E|split; [exact T|split; [apply errors_level_spec|]]].
  rewrite app_length in Q1; cbn [length] in Q1; replace (ncall s + (length ps + 1) - 1) with (ncall s + length ps) in Q1 by lia.
  unfold reaches in Q2; destruct (Z.leb_spec (c_level (cf s)) (errors_level (cf s) (p_elevel p) (p_level p))); [left; split; [assumption|split; [exact Q2|congruence]]|right; auto].
Qed.

(** C27: with deduplication off every function whose level reaches the threshold writes a record. *)
Theorem C27_without_deduplication : forall W ps e s, e_exc e = true -> is_ok (estr (ce W) e) = true -> is_ok (jvars W [] []) = true ->
  is_off s = false -> c_dedup (cf s) = false ->
  Forall (fun p => p_all p = false /\ ~ listed_exception (hi W) (cf s) e (p_supp p)) ps -> hier_ok (hi W) ->
  exists s' new, exec W (chain ps e) s = (s', ORaise e) /\ tr s' = tr s ++ new /\
    count (of_error (e_id e)) new = length (filter (fun p => Z.leb (c_level (cf s)) (errors_level (cf s) (p_elevel p) (p_level p))) ps).
Proof.
  intros W ps e s Exc Str Vars Off D Un Hh.
  assert (Un' : Forall (unsuppressed W e (cf s)) ps).
  { eapply Forall_impl; [|exact Un]; intros x [A B]; split; [exact A|]; destruct (is_suppressed _ _ _ _) eqn:E; [|reflexivity].
    exfalso; apply B; apply is_suppressed_spec; assumption. }
  destruct (chain_run W e Exc Str Vars ps s Off Un') as [s' [new [E [T [_ [_ [_ Q]]]]]]].
  rewrite D in Q; exists s', new; split; [exact E|split; [exact T|exact Q]].
Qed.

(** * C28: message() *)

Lemma nodup_fset : forall f k v, NoDup (map fst f) -> NoDup (map fst (fset f k v)).
Proof. intros f k v H; apply (NoDup_dset String.eqb string_eqb_spec); exact H. Qed.
Lemma nodup_fdel : forall f k, NoDup (map fst f) -> NoDup (map fst (fdel f k)).
Proof. intros f k H; apply (NoDup_ddel String.eqb); exact H. Qed.
Lemma nodup_put_kws : forall c fb all kw rest d d', put_kws c fb all kw rest d = Ok d' -> NoDup (map fst d) -> NoDup (map fst d').
Proof.
  intros c fb all kw; induction rest as [|[k v] r IH]; intros d d' H N; cbn [put_kws] in H; [injection H as <-; exact N|].
  destruct (put_kw c fb all kw d k v) as [d1|x] eqn:E; cbn [bindR] in H; [|discriminate].
  apply (IH d1 d' H); clear H IH.
  assert (Nn : forall q w, NoDup (map fst (not_none d q w))) by (intros q w; destruct w; cbn; try exact N; apply nodup_fset; exact N).
  unfold put_kw in E; destruct (memb (convert_key k) fb).
  { destruct (maybe_raise c EKeyError); cbn in E; [injection E as <-; exact N|discriminate]. }
  set (stor := bindR (convert_value c (convert_key k) v) _) in E.
  assert (S : stor = Ok d1 -> NoDup (map fst d1)).
  { unfold stor; destruct (convert_value c (convert_key k) v) as [w|]; cbn [bindR]; [|discriminate].
    destruct (fget d (convert_key k)); [|intros Z; injection Z as <-; apply Nn].
    destruct (fget kw (convert_key k)); [|discriminate]; destruct (veq v0 v1); [intros Z; injection Z as <-; apply Nn|].
    destruct (maybe_raise c EValueError); cbn; [intros Z; injection Z as <-; exact N|discriminate]. }
  destruct (allowed (convert_key k) v) as [[|]|]; [exact (S E)| |].
  - destruct (maybe_raise c EValueError); cbn in E; [injection E as <-; exact N|discriminate].
  - destruct (memb (convert_key k) (c_extra c)); [exact (S E)|]; destruct (all || c_unknown c); [exact (S E)|].
    destruct (maybe_raise c EKeyError); cbn in E; [injection E as <-; exact N|discriminate].
Qed.
Lemma nodup_message : forall c w args kw f, message_fields c w args kw = Ok (Some f) -> NoDup (map fst f).
Proof.
  intros c w args kw f H; unfold message_fields, prepare, put_args in H.
  destruct (match args with _ :: _ :: _ => _ | _ => _ end); cbn [bindR] in H; [|discriminate].
  set (d := match args with a :: _ => [("message", a)] | [] => [] end) in H.
  assert (Nd : NoDup (map fst d)) by (unfold d; destruct args; cbn; [constructor|constructor; [intros []|constructor]]).
  destruct (put_kws c ["function"] false kw kw d) as [p|] eqn:E; cbn [bindR] in H; [|discriminate].
  pose proof (nodup_put_kws _ _ _ _ _ _ _ E Nd) as Np.
  destruct (extract_exception c w p false false) as [g|] eqn:Ex; cbn [bindR] in H; [|discriminate].
  assert (Ng : NoDup (map fst g)).
  { unfold extract_exception in Ex; destruct (fget p "exception") as [x|]; [|injection Ex as <-; exact Np].
    destruct x as [|b|z|z|i n t m|i n m|e|i]; cbn [bindR] in Ex; try (injection Ex as <-; apply nodup_fdel; exact Np).
    - injection Ex as <-; apply nodup_fdel; apply nodup_fset; exact Np.
    - destruct (e_exc e); cbn [bindR] in Ex; [|injection Ex as <-; apply nodup_fdel; exact Np].
      unfold exception_to_dict in Ex; destruct (estr w e); cbn [bindR] in Ex; [|discriminate].
      injection Ex as <-; apply nodup_fdel; destruct (String.eqb (locs w) ""); repeat apply nodup_fset; exact Np. }
  destruct g; [discriminate|injection H as <-; exact Ng].
Qed.

Lemma update_get : forall m f k, NoDup (map fst m) -> fget (update f m) k = match fget m k with Some v => Some v | None => fget f k end.
Proof.
  induction m as [|[q v] r IH]; intros f k N; [reflexivity|]; cbn [update map fst] in *.
  inversion N as [|x y Nx Ny]; subst; rewrite IH by exact Ny.
  assert (Hd : fget ((q, v) :: r) k = if String.eqb k q then Some v else fget r k) by reflexivity.
  rewrite Hd, fget_fset; destruct (String.eqb_spec k q) as [->|Ne].
  - assert (Z : fget r q = None) by (apply (dget_None String.eqb string_eqb_spec); exact Nx); rewrite Z; reflexivity.
  - reflexivity.
Qed.

(** The automatic fields. *)
Inductive automatic (W : cenv) : kind -> fields -> Prop :=
| au_norm : forall n p c l r, automatic W (KNorm n) (auto_norm W p c l r)
| au_exc : forall n e p c l t, automatic W (KExc n e) (auto_exc W p c l e t).
Definition is_auto (k : kind) : Prop := match k with KNorm _ | KExc _ _ => True | _ => False end.

(** C28: in every execution, the record of a call has its automatic fields overlaid by the fields of message() in force. *)
Theorem C28_record_is_overlaid : forall W q c s o a k f b, exec W q (start c) = (s, o) -> tr s = a ++ ERec k f :: b -> is_auto k ->
  exists g, automatic W k g /\ forall name, name <> "input_variables" ->
    fget f name = match ctx_of a with Some m => match fget m name with Some v => Some v | None => fget g name end | None => fget g name end.
Proof.
  intros W q c s o a k f b H E A; destruct (exec_grown W (fun _ _ => True) q (confs_any q) _ _ _ H) as [new G].
  pose proof (g_tr _ _ _ _ _ G) as T; cbn in T; rewrite T in E.
  destruct (g_rec _ _ _ _ _ G a k f b E) as [x [M [_ [_ [Mx _]]]]]; cbn in Mx.
  assert (Nd : forall m, ctx_of a = Some m -> NoDup (map fst m)).
  { intros m Hm; assert (Hin : In (EMsg m) a).
    { unfold ctx_of in Hm; clear - Hm; induction a as [|e r IH] using rev_ind; [discriminate|].
      rewrite fold_left_app in Hm; cbn in Hm; apply in_app_iff.
      destruct e as [n|[| | |] g|n o|g| |g|n]; cbn in Hm; try discriminate; auto; injection Hm as ->; right; left; reflexivity. }
    destruct (g_nmsg _ _ _ _ _ G m) as [y [args [kw Ey]]]; [rewrite E; apply in_app_iff; left; exact Hin|exact (nodup_message _ _ _ _ _ Ey)]. }
  fold (ctx_of a) in Mx.
  assert (Over : forall g iv name, name <> "input_variables" -> fget (put_opt (copy_context x g) "input_variables" iv) name =
    match ctx_of a with Some m => match fget m name with Some v => Some v | None => fget g name end | None => fget g name end).
  { intros g iv name Hn.
    assert (Pi : fget (put_opt (copy_context x g) "input_variables" iv) name = fget (copy_context x g) name)
      by (unfold put_opt; destruct iv; [apply fset_other; exact Hn|reflexivity]).
    rewrite Pi; unfold copy_context; rewrite Mx; destruct (ctx_of a) as [m|] eqn:Em; [apply update_get; apply Nd; reflexivity|reflexivity]. }
  inversion M; subst; try contradiction.
  - eexists; split; [apply au_norm|intros name Hn; apply Over; exact Hn].
  - eexists; split; [apply au_exc|intros name Hn; apply Over; exact Hn].
Qed.

(** C28: the fields in force are those of the last message(), if no logged call has begun and no record of a call was
    made after it. *)
Definition breaks (e : ev) : bool :=
  match e with EMsg _ | EStart _ | ELost _ | ERec (KNorm _) _ | ERec (KExc _ _) _ => true | _ => false end.
Theorem C28_which_message : forall t m, ctx_of t = Some m <-> exists a b, t = a ++ EMsg m :: b /\ forall e, In e b -> breaks e = false.
Proof.
  intros t m; unfold ctx_of; split.
  - induction t as [|e r IH] using rev_ind; [discriminate|]; rewrite fold_left_app; cbn [fold_left]; intros H.
    destruct (breaks e) eqn:B.
    + destruct e as [n|[| | |] g|n o|g| |g|n]; cbn in B, H; try discriminate; injection H as ->; exists r, []; split; [reflexivity|intros e []].
    + assert (H' : fold_left ctx_step r None = Some m) by (destruct e as [n|[| | |] g|n o|g| |g|n]; cbn in B, H; try discriminate; exact H).
      destruct (IH H') as [a [b [-> Hb]]]; exists a, (b ++ [e]); split; [rewrite <- app_assoc; reflexivity|].
      intros x Hx; apply in_app_iff in Hx; destruct Hx as [Hx|[<-|[]]]; [apply Hb; exact Hx|exact B].
  - intros [a [b [-> Hb]]]; rewrite fold_left_app; cbn [fold_left ctx_step].
    induction b as [|e r IH]; [reflexivity|]; cbn [fold_left].
    assert (B : breaks e = false) by (apply Hb; left; reflexivity).
    assert (S : ctx_step (Some m) e = Some m) by (destruct e as [n|[| | |] g|n o|g| |g|n]; cbn in B |- *; try discriminate; reflexivity).
    rewrite S; apply IH; intros x Hx; apply Hb; right; exact Hx.
Qed.

(** C28: manual records and those of with-blocks are made of their own arguments only. *)
Theorem C28_manual_records_untouched : forall W k args kw s m,
  snd (manual W k args kw (set_msg s m)) = snd (manual W k args kw s) /\
  tr (fst (manual W k args kw (set_msg s m))) = tr (fst (manual W k args kw s)).
Proof.
  intros W k args kw s m; unfold manual; change (cf (set_msg s m)) with (cf s); change (is_off (set_msg s m)) with (is_off s).
  destruct (handle (cf s) (ce W) true (is_off s) args kw) as [[f|]|x]; cbn [fst snd]; split; reflexivity.
Qed.

(** * C57: what the record of a call says *)

(** The names that come from the function object: each at most once. *)
Definition own_names : list string := ["module"; "function"; "class"].
Definition own (p : params) : Prop := NoDup (map fst (p_fun p)) /\ incl (map fst (p_fun p)) own_names.
Definition str_field (x : option string) : option val := match x with Some t => Some (VStr t) | None => None end.
(** All the names of the fields of a record of a call. *)
Definition call_names : list string :=
  ["auto"; "time"; "success"; "level"; "time_of_work"; "result"; "exception_type"; "exception_message"; "traceback"; "local_variables";
   "message"; "service_name"; "input_variables"] ++ own_names.

Lemma put_opt_get : forall f k x name, fget (put_opt f k x) name =
  if String.eqb name k then (match x with Some t => Some (VStr t) | None => fget f k end) else fget f name.
Proof.
  intros f k x name; unfold put_opt; destruct x as [t|]; [apply fget_fset|].
  destruct (String.eqb_spec name k) as [->|]; reflexivity.
Qed.
Lemma base_get : forall W p name, own p -> fget (base W p) name =
  if String.eqb name "time" then Some (now (ce W))
  else match fget (p_fun p) name with Some v => Some v
       | None => if String.eqb name "message" then str_field (p_msg p) else if String.eqb name "auto" then Some (VBool true) else None end.
Proof.
  intros W p name [N _]; unfold base; rewrite fget_fset; destruct (String.eqb name "time"); [reflexivity|].
  rewrite update_get by exact N; destruct (fget (p_fun p) name); [reflexivity|].
  rewrite put_opt_get; unfold fget; cbn [dget]; destruct (String.eqb_spec name "message") as [->|]; [destruct (p_msg p); reflexivity|reflexivity].
Qed.
Lemma own_none : forall p name, own p -> ~ In name own_names -> fget (p_fun p) name = None.
Proof.
  intros p name [_ I] H; destruct (fget (p_fun p) name) as [v|] eqn:E; [exfalso|reflexivity].
  apply H, I; unfold fget in E; apply (dget_In String.eqb string_eqb_spec) in E; apply (in_map fst) in E; exact E.
Qed.

(** C57: if the call returned and message() was not used, the record has exactly these fields. *)
Theorem C57_success_record : forall W p a kw body s s1 v f, own p -> exec W body (begun s) = (s1, ORet v) -> msg s1 = None ->
  In (ERec (KNorm (ncall s)) f) (tr (fst (after W p a kw (ncall s) (ORet v) s1))) -> ~ In (ERec (KNorm (ncall s)) f) (tr s1) ->
  (forall name, ~ In name call_names -> fget f name = None) /\
  fget f "auto" = Some (VBool true) /\ fget f "time" = Some (now (ce W)) /\ fget f "success" = Some (VBool true) /\
  (exists l, fget f "level" = Some (VInt l) /\ normal_level (cf s1) (p_level p) l) /\
  fget f "time_of_work" = Some (dur W) /\ (exists r, jone W v = Ok r /\ fget f "result" = Some (VStr r)) /\
  fget f "exception_type" = None /\ fget f "exception_message" = None /\ fget f "traceback" = None /\ fget f "local_variables" = None /\
  fget f "message" = str_field (p_msg p) /\ fget f "service_name" = str_field (c_service (cf s1)) /\
  (exists iv, jvars W a kw = Ok iv /\ fget f "input_variables" = str_field iv) /\
  (forall name, In name own_names -> fget f name = fget (p_fun p) name).
Proof.
  intros W p a kw body s s1 v f Ow _ Nm Hin Hout; unfold after in Hin.
  destruct (log_normal W p a kw (ncall s) v s1) as [s2 r] eqn:E.
  assert (Hin' : In (ERec (KNorm (ncall s)) f) (tr s2)) by (destruct r; exact Hin); clear Hin.
  destruct (log_normal_cases W _ _ _ _ _ _ _ _ E) as [[-> _]|[[_ [-> _]]|[_ [_ [l [rr [iv [Nl [_ [Ej [Ev ->]]]]]]]]]]].
  - contradiction.
  - cbn in Hin'; apply in_app_iff in Hin'; destruct Hin' as [Z|[Z|[]]]; [contradiction|discriminate].
  - cbn [tr emit set_msg] in Hin'; apply in_app_iff in Hin'; destruct Hin' as [Z|[Z|[]]]; [contradiction|]; injection Z as <-.
    unfold copy_context; rewrite Nm.
    assert (G : forall name, fget (put_opt (auto_norm W p (cf s1) l rr) "input_variables" iv) name =
      if String.eqb name "input_variables" then str_field iv
      else if String.eqb name "service_name" then str_field (c_service (cf s1))
      else if String.eqb name "level" then Some (VInt l) else if String.eqb name "time_of_work" then Some (dur W)
      else if String.eqb name "result" then Some (VStr rr) else if String.eqb name "success" then Some (VBool true)
      else fget (base W p) name).
    { intros name; unfold auto_norm; rewrite !put_opt_get, !fget_fset.
      destruct (String.eqb name "input_variables"); [destruct iv; [reflexivity|]; cbn [String.eqb Ascii.eqb Bool.eqb]; rewrite (base_get _ _ _ Ow), (own_none p) by (try exact Ow; cbn; intuition discriminate); reflexivity|].
      destruct (String.eqb name "service_name"); [destruct (c_service (cf s1)); [reflexivity|]; cbn [String.eqb Ascii.eqb Bool.eqb]; rewrite (base_get _ _ _ Ow), (own_none p) by (try exact Ow; cbn; intuition discriminate); reflexivity|].
      reflexivity. }
    assert (Nn : forall name, ~ In name own_names -> fget (p_fun p) name = None) by (intros; apply own_none; assumption).
    assert (Nown : forall name, ~ In name call_names -> ~ In name own_names) by (intros name H Z; apply H; unfold call_names; apply in_app_iff; right; exact Z).
    assert (Neq : forall name k, ~ In name call_names -> In k call_names -> String.eqb name k = false) by (intros name k H K; apply String.eqb_neq; intros ->; contradiction).
    repeat split.
    + intros name Hn; rewrite G, (base_get _ _ _ Ow), (Nn name (Nown name Hn)), !(Neq name _ Hn) by (cbn; tauto); reflexivity.
    + rewrite G, (base_get _ _ _ Ow), Nn by (cbn; intuition discriminate); reflexivity.
    + rewrite G, (base_get _ _ _ Ow); reflexivity.
    + rewrite G; reflexivity.
    + exists l; rewrite G; auto.
    + rewrite G; reflexivity.
    + exists rr; rewrite G; auto.
    + rewrite G, (base_get _ _ _ Ow), Nn by (cbn; intuition discriminate); reflexivity.
    + rewrite G, (base_get _ _ _ Ow), Nn by (cbn; intuition discriminate); reflexivity.
    + rewrite G, (base_get _ _ _ Ow), Nn by (cbn; intuition discriminate); reflexivity.
    + rewrite G, (base_get _ _ _ Ow), Nn by (cbn; intuition discriminate); reflexivity.
    + rewrite G, (base_get _ _ _ Ow), Nn by (cbn; intuition discriminate); reflexivity.
    + rewrite G; reflexivity.
    + exists iv; rewrite G; auto.
    + intros name Hn; rewrite G, (base_get _ _ _ Ow); cbn in Hn; destruct Hn as [<-|[<-|[<-|[]]]]; cbn; destruct (fget (p_fun p) _); reflexivity.
Qed.

(** C57: the same for a call that raised. *)
Theorem C57_failure_record : forall W p a kw body s s1 e f, own p -> exec W body (begun s) = (s1, ORaise e) -> msg s1 = None ->
  In (ERec (KExc (ncall s) e) f) (tr (fst (after W p a kw (ncall s) (ORaise e) s1))) -> ~ In (ERec (KExc (ncall s) e) f) (tr s1) ->
  (forall name, ~ In name call_names -> fget f name = None) /\
  fget f "auto" = Some (VBool true) /\ fget f "time" = Some (now (ce W)) /\ fget f "success" = Some (VBool false) /\
  (exists l, fget f "level" = Some (VInt l) /\ error_level (cf s1) (p_elevel p) (p_level p) l) /\
  fget f "time_of_work" = Some (dur W) /\ fget f "result" = None /\
  fget f "exception_type" = Some (VStr (cname (ce W) (e_cls e))) /\
  (exists t, estr (ce W) e = Ok t /\ fget f "exception_message" = Some (VStr t)) /\
  fget f "traceback" = Some (VStr (tbk (ce W))) /\ fget f "local_variables" = Some (VStr (locs (ce W))) /\
  fget f "message" = str_field (p_msg p) /\ fget f "service_name" = str_field (c_service (cf s1)) /\
  (exists iv, jvars W a kw = Ok iv /\ fget f "input_variables" = str_field iv) /\
  (forall name, In name own_names -> fget f name = fget (p_fun p) name).
Proof.
  intros W p a kw body s s1 e f Ow _ Nm Hin Hout; unfold after in Hin.
  destruct (e_exc e); [|contradiction].
  destruct (log_exception W p a kw (ncall s) e s1) as [s2 r] eqn:E.
  assert (Hin' : In (ERec (KExc (ncall s) e) f) (tr s2)) by (destruct r; [destruct (_ || _) in Hin; exact Hin|exact Hin]); clear Hin.
  destruct (log_exception_cases W _ _ _ _ _ _ _ _ E) as [C|C].
  { destruct C as [-> _]; contradiction. }
  destruct C as [C|C].
  { destruct C as [_ [_ [-> _]]]; contradiction. }
  decompose [and ex] C; clear C; subst s2; cbn [tr emit set_msg mark] in Hin'.
  apply in_app_iff in Hin'; destruct Hin' as [Z|[Z|[]]]; [contradiction|]; injection Z as <-.
  match goal with _ : estr _ _ = Ok ?t, _ : jvars _ _ _ = Ok ?iv |- _ => rename t into tx; rename iv into iv0 end.
  unfold copy_context; cbn [msg mark]; rewrite Nm.
  pose proof (errors_level_spec (cf s1) (p_elevel p) (p_level p)) as El; set (l := errors_level (cf s1) (p_elevel p) (p_level p)) in *.
  assert (G : forall name, fget (put_opt (auto_exc W p (cf s1) l e tx) "input_variables" iv0) name =
    if String.eqb name "input_variables" then str_field iv0
    else if String.eqb name "service_name" then str_field (c_service (cf s1))
    else if String.eqb name "level" then Some (VInt l) else if String.eqb name "time_of_work" then Some (dur W)
    else if String.eqb name "local_variables" then Some (VStr (locs (ce W))) else if String.eqb name "traceback" then Some (VStr (tbk (ce W)))
    else if String.eqb name "success" then Some (VBool false) else if String.eqb name "exception_type" then Some (VStr (cname (ce W) (e_cls e)))
    else if String.eqb name "exception_message" then Some (VStr tx) else fget (base W p) name).
  { intros name; unfold auto_exc; rewrite !put_opt_get, !fget_fset.
    destruct (String.eqb name "input_variables"); [destruct iv0; [reflexivity|]; cbn [String.eqb Ascii.eqb Bool.eqb]; rewrite (base_get _ _ _ Ow), (own_none p) by (try exact Ow; cbn; intuition discriminate); reflexivity|].
    destruct (String.eqb name "service_name"); [destruct (c_service (cf s1)); [reflexivity|]; cbn [String.eqb Ascii.eqb Bool.eqb]; rewrite (base_get _ _ _ Ow), (own_none p) by (try exact Ow; cbn; intuition discriminate); reflexivity|].
    reflexivity. }
  assert (Nn : forall name, ~ In name own_names -> fget (p_fun p) name = None) by (intros; apply own_none; assumption).
  assert (Nown : forall name, ~ In name call_names -> ~ In name own_names) by (intros name Hx Z; apply Hx; unfold call_names; apply in_app_iff; right; exact Z).
  assert (Neq : forall name k, ~ In name call_names -> In k call_names -> String.eqb name k = false) by (intros name k Hx K; apply String.eqb_neq; intros ->; contradiction).
  repeat split.
  - intros name Hn; rewrite G, (base_get _ _ _ Ow), (Nn name (Nown name Hn)), !(Neq name _ Hn) by (cbn; tauto); reflexivity.
  - rewrite G, (base_get _ _ _ Ow), Nn by (cbn; intuition discriminate); reflexivity.
  - rewrite G, (base_get _ _ _ Ow); reflexivity.
  - rewrite G; reflexivity.
  - exists l; rewrite G; auto.
  - rewrite G; reflexivity.
  - rewrite G, (base_get _ _ _ Ow), Nn by (cbn; intuition discriminate); reflexivity.
  - rewrite G; reflexivity.
  - exists tx; rewrite G; auto.
  - rewrite G; reflexivity.
  - rewrite G; reflexivity.
  - rewrite G, (base_get _ _ _ Ow), Nn by (cbn; intuition discriminate); reflexivity.
  - rewrite G; reflexivity.
  - exists iv0; rewrite G; auto.
  - intros name Hn; rewrite G, (base_get _ _ _ Ow); cbn in Hn; destruct Hn as [<-|[<-|[<-|[]]]]; cbn; destruct (fget (p_fun p) _); reflexivity.
Qed.

(** * Examples and refutations *)
Definition h0 : hier := [[]; [0]; [1]; [2]; [0]].   (* BaseException, Exception, ValueError, a subclass of it, KeyboardInterrupt *)
Definition W0 : cenv := mkCenv w0 h0 (fun _ => Ok "r") (fun _ _ => Ok None) (VInt 7) (fun _ => 1) 1.
Definition p0 : params := mkPar None None None false [] [("function", VStr "f")].
Definition p_lv (z : Z) : params := mkPar None (Some (VInt z)) (Some (VInt z)) false [] [].
Definition e0 : eobj := mkE 0 2 true.
Definition skip (q : prog) : outcome -> prog := fun _ => q.
Definition recs (s : st) : list kind := flat_map (fun e => match e with ERec k _ => [k] | _ => [] end) (tr s).
Definition leaf (p : params) (k : prog) : prog := Logged p [] [] (Done (ORet (VInt 3))) (skip k).

(** C24: "nothing inside a fully unlogged function is logged" fails after a nested unlogged call has returned. *)
Theorem C24_everything_inside_refuted : exists W q c, c_full c = true /\
  exists a b d k f, tr (fst (exec W q (start c))) = a ++ [ERec k f] ++ b /\
    q = Unlogged (Some true) d Done /\ In (EOff (Some true)) a /\ In EOn b /\ count (fun e => match e with EOff _ => true | _ => false end) (tr (fst (exec W q (start c)))) = 2.
Proof.
  exists W0, (Unlogged (Some true) (Unlogged (Some true) (Done (ORet VNone)) (skip (leaf p0 (Done (ORet VNone))))) Done), (mkCfg 0 1 5 false false None [] [] true true true false).
  split; [reflexivity|]; exists [EOff (Some true); EOff (Some true); EOn; EStart 0], [EEnd 0 (ORet (VInt 3)); EOn].
  eexists; eexists; eexists; split; [reflexivity|split; [reflexivity|cbn; auto 10]].
Qed.
Example ex_unlog_silent : recs (fst (exec W0 (Unlogged (Some true) (leaf p0 (leaf p0 (Done (ORet VNone)))) (skip (leaf p0 (Done (ORet VNone))))) (start c0))) = [KNorm 2].
Proof. reflexivity. Qed.
Example ex_unlog_partial : recs (fst (exec W0 (Unlogged (Some false) (leaf p0 (Done (ORet VNone))) Done) (start c0))) = [KNorm 0].
Proof. reflexivity. Qed.

(** C25 *)
Example ex_transparent : forall q, q = leaf (p_lv 7) (Logged (mkPar None None None false [2] []) [] [] (Done (ORaise (mkE 3 3 true))) Done) ->
  snd (exec W0 q (start c0)) = ORet VNone /\ snd (exec W0 (bare h0 q) (start c0)) = ORet VNone.
Proof. intros q ->; split; reflexivity. Qed.
Example ex_unregistered : snd (exec W0 (Logged (mkPar None (Some (VStr "nope")) None false [] []) [] [] (Done (ORet (VInt 3))) Done) (start c0)) = ORaise (mkE 1 1 true).
Proof. reflexivity. Qed.
(** If str() of the exception fails, the caller gets another exception. *)
Theorem C25_always_transparent_refuted : exists W q c e e', snd (exec W (bare (hi W) q) (start c)) = ORaise e /\
  snd (exec W q (start c)) = ORaise e' /\ e_id e <> e_id e' /\ layers_ok (fun p => p_level p = None) q.
Proof.
  exists (mkCenv (mkEnv (fun _ => "E") (fun _ => Err (EUser 4)) "" "" VNone) h0 (fun _ => Ok "r") (fun _ _ => Ok None) (VInt 7) (fun _ => 1) 1).
  exists (Logged p0 [] [] (Done (ORaise e0)) Done), c0, e0; eexists; split; [reflexivity|split; [reflexivity|split; [discriminate|cbn; auto]]].
Qed.

(** C26: the level set by message() is written into the record but has no part in the decision. *)
Theorem C26_message_level_counts_refuted : exists W q c k f, In (ERec k f) (tr (fst (exec W q (start c)))) /\
  fget f "level" = Some (VInt 0) /\ (0 < c_level c)%Z.
Proof.
  exists W0, (Logged (p_lv 7) [] [] (Msg [] [("level", VInt 0)] (skip (Done (ORet VNone)))) Done), (mkCfg 3 1 5 false false None [] [] false true true false).
  eexists; eexists; split; [vm_compute; right; right; left; reflexivity|split; [reflexivity|reflexivity]].
Qed.
Example ex_threshold : recs (fst (exec W0 (leaf (p_lv 2) (leaf (p_lv 3) (Done (ORet VNone)))) (start (mkCfg 3 1 5 false false None [] [] false true true false)))) = [KNorm 1].
Proof. reflexivity. Qed.

(** C27 *)
Example ex_chain : recs (fst (exec W0 (chain [p_lv 9; p_lv 9; p_lv 4] e0) (start c0))) = [KExc 2 e0].
Proof. reflexivity. Qed.
Example ex_chain_filtered : recs (fst (exec W0 (chain [p_lv 9; p_lv 9; p_lv 2] e0) (start (mkCfg 3 1 5 false false None [] [] false true true false)))) = [].
Proof. reflexivity. Qed.
Example ex_chain_all : recs (fst (exec W0 (chain [p_lv 9; p_lv 1; p_lv 4] e0) (start (mkCfg 3 1 5 false false None [] [] false false true false)))) = [KExc 2 e0; KExc 0 e0].
Proof. reflexivity. Qed.

(** C28: the claims that fail: edits survive a nested call; edits made in a nested call stay there; a second message()
    adds to the first. *)
Definition say (t : string) (k : prog) : prog := Msg [VStr t] [] (skip k).
Definition messages (s : st) : list (kind * option val) := flat_map (fun e => match e with ERec k f => [(k, fget f "message")] | _ => [] end) (tr s).
Theorem C28_survives_nested_call_refuted : exists W q c, messages (fst (exec W q (start c))) = [(KNorm 1, None); (KNorm 0, None)] /\
  q = Logged p0 [] [] (say "outer" (leaf p0 (Done (ORet VNone)))) Done.
Proof. exists W0; eexists; exists c0; split; [|reflexivity]; reflexivity. Qed.
Theorem C28_stays_in_its_call_refuted : exists W q c, messages (fst (exec W q (start c))) = [(KNorm 0, Some (VStr "inner"))] /\
  q = Logged (p_lv 5) [] [] (Logged (p_lv 1) [] [] (say "inner" (Done (ORet VNone))) (skip (Done (ORet VNone)))) Done.
Proof. exists W0; eexists; exists (mkCfg 3 1 5 false false None [] [] false true true false); split; [|reflexivity]; reflexivity. Qed.
Theorem C28_messages_add_up_refuted : exists W q c f, tr (fst (exec W q (start c))) = [EStart 0; EMsg [("message", VStr "m")]; EMsg [("success", VBool false)]; ERec (KNorm 0) f; EEnd 0 (ORet VNone)] /\
  fget f "message" = None /\ fget f "success" = Some (VBool false).
Proof.
  exists W0, (Logged p0 [] [] (say "m" (Msg [] [("success", VBool false)] (skip (Done (ORet VNone))))) Done), c0; eexists; split; [reflexivity|split; reflexivity].
Qed.
Example ex_message : messages (fst (exec W0 (Logged p0 [] [] (leaf p0 (say "mine" (Done (ORet VNone)))) Done) (start c0))) = [(KNorm 1, None); (KNorm 0, Some (VStr "mine"))].
Proof. reflexivity. Qed.

(** C57 *)
Example ex_success_record : exists f, tr (fst (exec W0 (leaf p0 (Done (ORet VNone))) (start c0))) = [EStart 0; ERec (KNorm 0) f; EEnd 0 (ORet (VInt 3))] /\
  fget f "result" = Some (VStr "r") /\ fget f "success" = Some (VBool true) /\ fget f "function" = Some (VStr "f") /\ fget f "class" = None.
Proof. eexists; split; [reflexivity|repeat split]. Qed.
Example ex_failure_record : exists f, tr (fst (exec W0 (chain [p_lv 9] e0) (start c0))) = [EStart 0; ERec (KExc 0 e0) f; EEnd 0 (ORaise e0)] /\
  fget f "success" = Some (VBool false) /\ fget f "level" = Some (VInt 9) /\ fget f "result" = None.
Proof. eexists; split; [reflexivity|repeat split]. Qed.

Print Assumptions C24_silence_inside.
Print Assumptions C24_silence_inside_setting.
Print Assumptions C24_status_is_the_last_order.
Print Assumptions C24_partial_unlog_changes_nothing.
Print Assumptions C25_transparent.
Print Assumptions C25_outcome_of_a_call.
Print Assumptions C26_success.
Print Assumptions C26_failure.
Print Assumptions C26_one_record_per_call.
Print Assumptions C27_at_most_one_record.
Print Assumptions C27_innermost_decides.
Print Assumptions C27_without_deduplication.
Print Assumptions C28_record_is_overlaid.
Print Assumptions C28_which_message.
Print Assumptions C57_success_record.
Print Assumptions C57_failure_record.
