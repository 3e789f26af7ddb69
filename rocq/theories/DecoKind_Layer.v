(** C75, continued: the layer that a method ends with, by the decorators of its function and of its class. *)
From Verif Require Import Base DecoClass_Model DecoKind_Model DecoKind_Spec DecoKind_Proofs DecoKind_Props.
Local Open Scope string_scope.
Local Open Scope list_scope.

(** ** What is expected *)
Section Expected.
  Context {P : Type}.

  (** A decorator that concerns one method: @log and @unlog at the function, and those of the class. *)
  Inductive dec : Type := AtBody (p : P) | AtClass (p : P) | Silence (full : option bool).
  Definition body_args (d : dec) : list P := match d with AtBody p => [p] | _ => [] end.
  Definition class_args (d : dec) : list P := match d with AtClass p => [p] | _ => [] end.
  Definition silences (d : dec) : bool := match d with Silence _ => true | _ => false end.
  Definition last_of {X : Type} (l : list X) : option X := hd_error (rev l).

  (** @unlog wins, its flag counts if nothing comes after it; else the last @log at the function; else that of the class. *)
  Definition layer (ds : list dec) : list (mark P) :=
    if existsb silences ds then [ByUnlog (match last_of ds with Some (Silence b) => b | _ => None end)]
    else match last_of (flat_map body_args ds), last_of (flat_map class_args ds) with
         | Some p, _ | None, Some p => [ByLog p]
         | None, None => []
         end.

  (** The decorators in the text of the program that concern the method n of class c. *)
  Definition concerns (c : nat) (n : string) (o : kop P) : list dec :=
    match o with
    | KBody c' n' d => if Nat.eqb c' c && String.eqb n' n then match d with HLog p => [AtBody p] | HUnlog b => [Silence b] | _ => [] end else []
    | KLog c' _ p => if Nat.eqb c' c && negb (starts_with "__" n) && negb (ends_with "__" n) then [AtClass p] else []
    | KUnlog c' b => if Nat.eqb c' c && negb (starts_with "__" n) then [Silence b] else []
    end.
  (** Decorators for all methods; and none of a class that inherits from c. *)
  Definition plain_text (mro : nat -> list nat) (c : nat) (o : kop P) : Prop :=
    match o with
    | KBody _ _ d => (exists p, d = HLog p) \/ (exists b, d = HUnlog b)
    | KLog c' ms _ => ms = [] /\ (c' = c \/ ~ In c (mro c'))
    | KUnlog c' _ => c' = c \/ ~ In c (mro c')
    end.
End Expected.
Arguments dec : clear implicits.

(** The functions of the user that a member is made of. *)
Definition function_of (m : member) : option nat := match m with MFun i | MStatic i | MClass i => Some i | _ => None end.

(** ** Proofs *)
Section Layer.
  Context {P : Type}.
  Notation fn := (fn P).
  Notation registry := (registry P).
  Variable u : nat.

  Definition core (x : fn) : fn := fst (calls x []).
  Lemma calls_core : forall (x : fn) a b, fst (calls x a) = fst (calls x b).
  Proof. induction x as [i|i|i p t IH|i b0 t IH|t IH v]; intros a b; cbn; auto. Qed.
  Lemma same_core : forall x y, same x y -> core x = core y.
  Proof. intros x y E; unfold core; rewrite E; reflexivity. Qed.
  Lemma eqb_core : forall x y : fn, fn_eqb x y = true -> core x = core y.
  Proof. intros x y E; apply same_core, fn_eqb_same, E. Qed.
  Lemma core_bound : forall (x : fn) v, core (Bound x v) = core x.
  Proof. intros x v; unfold core; cbn; apply calls_core. Qed.

  Lemma frame_dset : forall (d : list (fn * fn)) k v x, core k <> core x -> dget fn_eqb (dset fn_eqb d k v) x = dget fn_eqb d x.
  Proof.
    induction d as [|[k' v'] r IH]; cbn; intros k v x N.
    - destruct (fn_eqb x k) eqn:E; [apply eqb_core in E; congruence|reflexivity].
    - destruct (fn_eqb k k') eqn:E; cbn.
      + destruct (fn_eqb x k') eqn:E2; [apply eqb_core in E, E2; congruence|reflexivity].
      + destruct (fn_eqb x k'); [reflexivity|apply IH, N].
  Qed.
  Lemma frame_ddel : forall (d : list (fn * fn)) k x, core k <> core x -> dget fn_eqb (ddel fn_eqb d k) x = dget fn_eqb d x.
  Proof.
    induction d as [|[k' v'] r IH]; cbn; intros k x N; [reflexivity|].
    destruct (fn_eqb k k') eqn:E; cbn.
    - destruct (fn_eqb x k') eqn:E2; [apply eqb_core in E, E2; congruence|reflexivity].
    - destruct (fn_eqb x k'); [reflexivity|apply IH, N].
  Qed.
  Lemma dget_set : forall (d : list (fn * fn)) k v, dget fn_eqb (dset fn_eqb d k v) k = Some v.
  Proof.
    induction d as [|[k' v'] r IH]; cbn; intros k v; [rewrite fn_eqb_refl; reflexivity|].
    destruct (fn_eqb k k') eqn:E; cbn; rewrite E; [reflexivity|apply IH].
  Qed.

  (** Wrappers are the keys. *)
  Definition log_keys (d : list (fn * fn)) : Prop := forall w o, In (w, o) d -> exists i p t, w = Log i p t.
  Definition unlog_keys (d : list (fn * fn)) : Prop := forall w o, In (w, o) d -> exists i b t, w = Unlog i b t.
  Record RK (g : registry) : Prop := { rk_inv : RInv g; rk_log : log_keys (decorated g); rk_unlog : unlog_keys (unlogged g) }.

  Lemma log_dset : forall d i p t o, log_keys d -> log_keys (dset fn_eqb d (Log i p t) o).
  Proof.
    intros d i p t o K x y H; destruct (in_dset _ _ _ _ _ H) as [H'|[_ E]]; [exact (K _ _ H')|].
    destruct x; try discriminate E; eauto.
  Qed.
  Lemma unlog_dset : forall d i b t o, unlog_keys d -> unlog_keys (dset fn_eqb d (Unlog i b t) o).
  Proof.
    intros d i b t o K x y H; destruct (in_dset _ _ _ _ _ H) as [H'|[_ E]]; [exact (K _ _ H')|].
    destruct x; try discriminate E; eauto.
  Qed.
  Lemma log_ddel : forall d k, log_keys d -> log_keys (ddel fn_eqb d k).
  Proof. intros d k K x y H; exact (K _ _ (in_ddel _ _ _ H)). Qed.

  Lemma remove_keys : forall g f, log_keys (decorated g) -> unlog_keys (unlogged g) -> log_keys (decorated (remove_fn g f)) /\ unlog_keys (unlogged (remove_fn g f)).
  Proof. intros g f A B; unfold remove_fn; destruct (decorator_fn g f); split; cbn; auto using log_ddel. Qed.
  Lemma forbid_keys : forall g f, log_keys (decorated g) -> unlog_keys (unlogged g) -> log_keys (decorated (forbid_fn g f)) /\ unlog_keys (unlogged (forbid_fn g f)).
  Proof. intros g f A B; unfold forbid_fn; destruct (forbidden_fn g (original g f)); split; auto. Qed.
  Lemma unlog_fn_keys : forall g f b, log_keys (decorated g) -> unlog_keys (unlogged g) ->
    log_keys (decorated (fst (unlog_fn g f b))) /\ unlog_keys (unlogged (fst (unlog_fn g f b))).
  Proof.
    intros g f b A B; unfold unlog_fn; destruct (decorator_fn g f); cbn.
    - destruct (remove_keys g f A B) as [A1 B1]; destruct (forbid_keys _ (original g f) A1 B1) as [A2 B2]; split; [exact A2|apply unlog_dset, B2].
    - destruct (forbid_keys g f A B) as [A2 B2]; split; [exact A2|apply unlog_dset, B2].
  Qed.
  Lemma log_fn_keys : forall g f p m, log_keys (decorated g) -> unlog_keys (unlogged g) ->
    log_keys (decorated (fst (log_fn g f p m))) /\ unlog_keys (unlogged (fst (log_fn g f p m))).
  Proof.
    intros g f p m A B; unfold log_fn, choose_fn; destruct (forbidden_fn (bump g) (original g f)); [apply unlog_fn_keys; assumption|].
    assert (R : forall y, log_keys (decorated (remove_fn (bump g) y)) /\ unlog_keys (unlogged (remove_fn (bump g) y))) by (intros y; apply remove_keys; assumption).
    destruct (decorator_fn (bump g) f); [destruct (method_fn (bump g) f); [|destruct m]|]; cbn [fst]; try (split; assumption).
    1,2: destruct (R f); split; cbn; [apply log_dset|]; assumption.
    destruct (R (original g f)); split; cbn; [apply log_dset|]; assumption.
  Qed.
  Lemma deco_RK : forall g f d, RK g -> RK (fst (deco_fn g f d)).
  Proof.
    intros g f d [I A B].
    assert (Z : log_keys (decorated (fst (deco_fn g f d))) /\ unlog_keys (unlogged (fst (deco_fn g f d)))) by (destruct d; cbn [deco_fn]; [apply log_fn_keys|apply log_fn_keys|apply unlog_fn_keys|split]; assumption).
    destruct Z; split; [apply deco_fn_ok; exact I|assumption|assumption].
  Qed.

  (** What the registry knows of the function u. *)
  Definition known (g : registry) : bool * bool := (among (User u) (forbidden g), among (User u) (methods_of g)).
  Lemma among_cons : forall y (l : list fn), core y <> User u -> among (User u) (y :: l) = among (User u) l.
  Proof.
    intros y l N; unfold among; cbn [existsb]; destruct y; try reflexivity.
    destruct (fn_eqb (User u) (User i)) eqn:E; [|reflexivity]; cbn in E; apply Nat.eqb_eq in E; subst; exfalso; apply N; reflexivity.
  Qed.
  Lemma among_filter : forall y (l : list fn), core y <> User u -> among (User u) (filter (fun x => negb (fn_eqb x y)) l) = among (User u) l.
  Proof.
    intros y l N; induction l as [|x r IH]; cbn [filter]; [reflexivity|].
    destruct (fn_eqb x y) eqn:E; cbn [negb].
    - rewrite IH; symmetry; apply among_cons; rewrite (eqb_core _ _ E); exact N.
    - unfold among in *; cbn [existsb]; rewrite IH; reflexivity.
  Qed.

  (** What is done with other functions leaves it alone. *)
  Definition frame (g g' : registry) : Prop := known g' = known g /\ forall x, core x = User u -> original g' x = original g x.
  Lemma frame_refl : forall g, frame g g. Proof. split; auto. Qed.
  Lemma frame_trans : forall a b c, frame a b -> frame b c -> frame a c.
  Proof. intros a b c [A1 A2] [B1 B2]; split; [congruence|intros x E; rewrite B2, A2 by exact E; reflexivity]. Qed.
  Lemma remove_frame : forall g f, RInv g -> core f <> User u -> frame g (remove_fn g f).
  Proof.
    intros g f I N; unfold remove_fn; destruct (decorator_fn g f); [|apply frame_refl].
    assert (No : core (original g f) <> User u) by (rewrite (same_core _ _ (original_same g f I)); exact N).
    split; [unfold known; cbn [forbidden methods_of]; rewrite (among_filter _ _ No); reflexivity|].
    intros x E; unfold original; cbn; rewrite frame_ddel by congruence; reflexivity.
  Qed.
  Lemma forbid_frame : forall g f, RInv g -> core f <> User u -> frame g (forbid_fn g f).
  Proof.
    intros g f I N; unfold forbid_fn; destruct (forbidden_fn g (original g f)); [apply frame_refl|].
    split; [|intros; reflexivity]; unfold known; cbn [forbidden methods_of]; rewrite among_cons; [reflexivity|].
    rewrite (same_core _ _ (original_same g f I)); exact N.
  Qed.
  Lemma add_frame : forall g w o m, core w <> User u -> core o <> User u -> frame g (add_fn g w o m).
  Proof.
    intros g w o m Nw No; split.
    - unfold known; cbn [add_fn forbidden methods_of]; destruct m; [rewrite among_cons by exact No|]; reflexivity.
    - intros x E; unfold original; cbn [add_fn decorated unlogged]; rewrite frame_dset by congruence; reflexivity.
  Qed.
  Lemma unlog_frame : forall g f b, RInv g -> core f <> User u -> frame g (fst (unlog_fn g f b)).
  Proof.
    intros g f b I N.
    assert (No : core (original g f) <> User u) by (rewrite (same_core _ _ (original_same g f I)); exact N).
    unfold unlog_fn; destruct (decorator_fn g f); cbn [fst].
    - eapply frame_trans; [apply (remove_frame g f I N)|]; eapply frame_trans; [apply (forbid_frame _ (original g f) (remove_RInv _ f I) No)|].
      split; [reflexivity|]; intros x E; unfold original at 1; cbn [decorated unlogged]; rewrite frame_dset; [reflexivity|].
      rewrite E; exact No.
    - eapply frame_trans; [apply (forbid_frame g f I N)|]; split; [reflexivity|]; intros x E; unfold original at 1; cbn [decorated unlogged]; rewrite frame_dset; [reflexivity|].
      rewrite E; exact N.
  Qed.
  Lemma deco_frame : forall g f d, RInv g -> core f <> User u -> frame g (fst (deco_fn g f d)) /\ core (snd (deco_fn g f d)) <> User u.
  Proof.
    intros g f d I N; split; [|rewrite (same_core _ _ (proj2 (deco_fn_ok g f d I))); exact N].
    assert (No : core (original g f) <> User u) by (rewrite (same_core _ _ (original_same g f I)); exact N).
    assert (Ib : RInv (bump g)) by exact I.
    assert (L : forall p m, frame g (fst (log_fn g f p m))).
    { intros p m; unfold log_fn, choose_fn; apply (frame_trans _ (bump g)); [split; reflexivity|].
      destruct (forbidden_fn (bump g) (original g f)); [apply unlog_frame; assumption|].
      assert (Nw : core (Log (fresh g) p (original g f)) <> User u) by exact No.
      destruct (decorator_fn (bump g) f); [destruct (method_fn (bump g) f); [|destruct m]|]; cbn [fst]; try apply frame_refl;
        (eapply frame_trans; [|apply add_frame; assumption]); apply remove_frame; assumption. }
    destruct d; cbn [deco_fn]; [apply L|apply L|apply unlog_frame; assumption|apply frame_refl].
  Qed.

  (** The function itself. *)
  Lemma original_user : forall g, RK g -> original g (User u) = User u.
  Proof.
    intros g [_ A B]; unfold original; destruct (dget fn_eqb (decorated g) (User u)) as [o|] eqn:E.
    - destruct (dget_fn _ _ _ E) as (w & Hw & Q); destruct (A _ _ Hw) as (i & p & t & ->); discriminate Q.
    - destruct (dget fn_eqb (unlogged g) (User u)) as [o|] eqn:E2; [|reflexivity].
      destruct (dget_fn _ _ _ E2) as (w & Hw & Q); destruct (B _ _ Hw) as (i & b & t & ->); discriminate Q.
  Qed.
  Lemma original_unlog : forall g i b t, log_keys (decorated g) -> original g (Unlog i b t) = match dget fn_eqb (unlogged g) (Unlog i b t) with Some o => o | None => Unlog i b t end.
  Proof.
    intros g i b t A; unfold original; destruct (dget fn_eqb (decorated g) (Unlog i b t)) as [o|] eqn:E; [|reflexivity].
    destruct (dget_fn _ _ _ E) as (w & Hw & Q); destruct (A _ _ Hw) as (j & p & t' & ->); discriminate Q.
  Qed.

  (** x is the method after the decorators ds, g the registry. *)
  Record at_ (g : registry) (x : fn) (ds : list (dec P)) : Prop := {
    a_marks : marks x = layer ds;
    a_core : core x = User u;
    a_orig : original g x = User u;
    a_plain : layer ds = [] -> x = User u;
    a_forb : among (User u) (forbidden g) = existsb silences ds;
    a_meth : existsb silences ds = false ->
       among (User u) (methods_of g) = match flat_map body_args ds, flat_map class_args ds with [], _ :: _ => true | _, _ => false end }.
  Definition how_of (d : dec P) : how P := match d with AtBody p => HLog p | AtClass p => HMeth p | Silence b => HUnlog b end.

  Lemma last_snoc : forall X (l : list X) x, last_of (l ++ [x]) = Some x.
  Proof. intros X l x; unfold last_of; rewrite rev_unit; reflexivity. Qed.
  Lemma layer_snoc : forall ds (d : dec P), layer (ds ++ [d]) =
    match d with
    | Silence b => [ByUnlog b]
    | AtBody p => if existsb silences ds then [ByUnlog None] else [ByLog p]
    | AtClass p => if existsb silences ds then [ByUnlog None] else match last_of (flat_map body_args ds) with Some q => [ByLog q] | None => [ByLog p] end
    end.
  Proof.
    intros ds d; unfold layer; rewrite existsb_app, !flat_map_app, last_snoc; destruct d as [p|p|b]; cbn [existsb silences flat_map body_args class_args app].
    - rewrite !orb_false_r; destruct (existsb silences ds); [reflexivity|]; rewrite last_snoc; reflexivity.
    - rewrite !orb_false_r, app_nil_r; destruct (existsb silences ds); [reflexivity|]; rewrite last_snoc; destruct (last_of (flat_map body_args ds)); reflexivity.
    - rewrite orb_true_r; reflexivity.
  Qed.

  Lemma among_removed : forall (l : list fn), among (User u) (filter (fun x => negb (fn_eqb x (User u))) l) = false.
  Proof.
    induction l as [|x r IH]; cbn [filter]; [reflexivity|]; destruct (fn_eqb x (User u)) eqn:E; cbn [negb]; [exact IH|].
    unfold among in *; cbn [existsb]; rewrite IH, orb_false_r; destruct x; try reflexivity; cbn in *; rewrite Nat.eqb_sym; exact E.
  Qed.

  (** @unlog of the function, however it is reached. *)
  Lemma unlog_it : forall g x b, RK g -> original g x = User u ->
    let '(g', y) := unlog_fn g x b in
    marks y = [ByUnlog b] /\ core y = User u /\ original g' y = User u /\ among (User u) (forbidden g') = true.
  Proof.
    intros g x b K O.
    assert (G : forall g1, log_keys (decorated g1) -> unlog_keys (unlogged g1) -> RK g1 ->
      let w := Unlog (fresh (forbid_fn g1 (User u))) b (User u) in
      let g2 := bump (forbid_fn g1 (User u)) in
      let g' := mkRegistry (fresh g2) (decorated g2) (dset fn_eqb (unlogged g2) w (User u)) (forbidden g2) (methods_of g2) in
      marks w = [ByUnlog b] /\ core w = User u /\ original g' w = User u /\ among (User u) (forbidden g') = true).
    { intros g1 A B K1 w g2 g'; split; [reflexivity|split; [reflexivity|split]].
      - unfold w; rewrite original_unlog; [cbn [g' unlogged]; rewrite dget_set; reflexivity|apply (forbid_keys g1 (User u) A B)].
      - subst g' g2; cbn [bump forbidden]; unfold forbid_fn, forbidden_fn; rewrite !(original_user g1 K1).
        destruct (among (User u) (forbidden g1)) eqn:F; [exact F|]; unfold among; cbn [forbidden existsb fn_eqb]; rewrite Nat.eqb_refl; reflexivity. }
    unfold unlog_fn; destruct (decorator_fn g x) eqn:D.
    - rewrite O; destruct (remove_keys g x (rk_log g K) (rk_unlog g K)) as [A B].
      apply (G (remove_fn g x) A B); split; [apply remove_RInv, (rk_inv g K)|exact A|exact B].
    - unfold decorator_fn in D; rewrite O in D; apply negb_false_iff in D; destruct x; try discriminate D; cbn in D; apply Nat.eqb_eq in D; subst i.
      apply (G g (rk_log g K) (rk_unlog g K) K).
  Qed.

  Lemma deco_at : forall g x ds d, RK g -> at_ g x ds -> let '(g', y) := deco_fn g x (how_of d) in at_ g' y (ds ++ [d]).
  Proof.
    intros g x ds d K [Am Ac Ao Ap Af Ae].
    assert (Si : forall g' y b, marks y = [ByUnlog b] /\ core y = User u /\ original g' y = User u /\ among (User u) (forbidden g') = true ->
      layer (ds ++ [d]) = [ByUnlog b] -> existsb silences (ds ++ [d]) = true -> at_ g' y (ds ++ [d])).
    { intros g' y b (H1 & H2 & H3 & H4) L S; constructor; auto; try congruence. }
    (* a wrapper of @log *)
    assert (Lo : forall p m, existsb silences ds = false -> d = AtBody p \/ d = AtClass p -> (m = match d with AtClass _ => true | _ => false end) ->
      let '(g', y) := log_fn g x p m in at_ g' y (ds ++ [d])).
    { intros p m S D M; unfold log_fn, choose_fn; rewrite Ao; unfold forbidden_fn.
      assert (Kb : RK (bump g)) by (destruct K as [K1 K2 K3]; split; assumption).
      rewrite (original_user _ Kb); change (forbidden (bump g)) with (forbidden g); rewrite Af, S.
      assert (S' : existsb silences (ds ++ [d]) = false) by (rewrite existsb_app, S; destruct D as [-> | ->]; reflexivity).
      assert (New : forall g1, forbidden g1 = forbidden g ->
         (m = false -> among (User u) (methods_of g1) = false) -> layer (ds ++ [d]) = [ByLog p] ->
         (m = true -> flat_map body_args ds = []) ->
         at_ (add_fn g1 (Log (fresh g) p (User u)) (User u) m) (Log (fresh g) p (User u)) (ds ++ [d])).
      { intros g1 Ef Em L Nb; constructor; auto.
        - unfold original; cbn [add_fn decorated]; rewrite dget_set; reflexivity.
        - rewrite L; discriminate.
        - cbn [add_fn forbidden]; rewrite Ef, Af, S, S'; reflexivity.
        - intros _; cbn [add_fn methods_of]; rewrite !flat_map_app; destruct D as [-> | ->]; subst m; cbn [flat_map body_args class_args app].
          + rewrite Em by reflexivity; destruct (flat_map body_args ds); reflexivity.
          + rewrite Nb by reflexivity; unfold among; cbn [existsb fn_eqb]; rewrite Nat.eqb_refl; destruct (flat_map class_args ds); reflexivity. }
      assert (LP : (m = true -> flat_map body_args ds = []) -> layer (ds ++ [d]) = [ByLog p]).
      { intros Nb; rewrite layer_snoc; destruct D as [-> | ->]; rewrite S; [reflexivity|]; rewrite Nb by exact M; reflexivity. }
      assert (BZ : layer ds = [] -> flat_map body_args ds = [] /\ flat_map class_args ds = []).
      { assert (LN : forall X (l : list X), last_of l = None -> l = []).
        { intros X l Q; unfold last_of in Q; destruct l as [|z l]; [reflexivity|]; cbn in Q; destruct (rev l); discriminate Q. }
        unfold layer; rewrite S; destruct (last_of (flat_map body_args ds)) eqn:E1; [discriminate|]; destruct (last_of (flat_map class_args ds)) eqn:E2; [discriminate|].
        intros _; split; apply LN; assumption. }
      assert (DD : decorator_fn (bump g) x = negb (fn_eqb x (User u))) by (unfold decorator_fn; change (original (bump g) x) with (original g x); rewrite Ao; reflexivity).
      assert (MM : method_fn (bump g) x = among (User u) (methods_of g)) by (unfold method_fn; change (original (bump g) x) with (original g x); rewrite Ao; reflexivity).
      assert (Rm : negb (fn_eqb x (User u)) = true -> forbidden (remove_fn (bump g) x) = forbidden g /\ methods_of (remove_fn (bump g) x) = filter (fun y => negb (fn_eqb y (User u))) (methods_of g)).
      { intros Q; unfold remove_fn; rewrite DD, Q; split; [reflexivity|]; cbn; change (original (bump g) x) with (original g x); rewrite Ao; reflexivity. }
      rewrite DD, MM; specialize (Ae S); destruct (negb (fn_eqb x (User u))) eqn:X.
      - destruct (Rm eq_refl) as [Rf Rme].
        assert (Mf : among (User u) (methods_of (remove_fn (bump g) x)) = false) by (rewrite Rme; apply among_removed).
        destruct (among (User u) (methods_of g)) eqn:M0.
        + assert (Nb : flat_map body_args ds = []) by (destruct (flat_map body_args ds); [reflexivity|discriminate Ae]).
          apply New; auto.
        + destruct m.
          * destruct D as [-> | ->]; [discriminate M|].
            destruct (flat_map body_args ds) as [|z l] eqn:B.
            { exfalso; destruct (flat_map class_args ds) as [|z l] eqn:C; [|discriminate Ae].
              assert (x = User u) as -> by (apply Ap; unfold layer; rewrite S, B, C; reflexivity).
              cbn in X; rewrite Nat.eqb_refl in X; discriminate X. }
            assert (L : layer (ds ++ [AtClass p]) = layer ds).
            { rewrite layer_snoc, S; unfold layer; rewrite S, B; destruct (last_of (z :: l)) eqn:Q; [reflexivity|].
              unfold last_of in Q; cbn in Q; destruct (rev l); discriminate Q. }
            constructor; rewrite ?L; auto.
            { cbn [bump forbidden]; rewrite Af, S, S'; reflexivity. }
            { intros _; cbn [bump methods_of]; rewrite M0, !flat_map_app, B; reflexivity. }
          * apply New; auto; [apply LP; intros Q; discriminate Q|intros Q; discriminate Q].
      - apply negb_false_iff in X; assert (x = User u) as -> by (destruct x; try discriminate X; cbn in X; apply Nat.eqb_eq in X; congruence).
        destruct (BZ (eq_sym Am)) as [B C]; rewrite B, C in Ae.
        assert (Z : remove_fn (bump g) (User u) = bump g) by (unfold remove_fn; rewrite DD; reflexivity).
        rewrite Z; apply New; auto. }
    destruct d as [p|p|b]; cbn [how_of deco_fn].
    - destruct (existsb silences ds) eqn:S; [|apply Lo; auto].
      unfold log_fn, choose_fn; rewrite Ao; assert (Kb : RK (bump g)) by (destruct K as [K1 K2 K3]; split; assumption).
      unfold forbidden_fn; rewrite (original_user _ Kb); change (forbidden (bump g)) with (forbidden g); rewrite Af.
      pose proof (unlog_it (bump g) (User u) None Kb (original_user _ Kb)) as U; destruct (unlog_fn (bump g) (User u) None) as [g' y].
      apply (Si g' y None U); [rewrite layer_snoc, S; reflexivity|rewrite existsb_app, S; reflexivity].
    - destruct (existsb silences ds) eqn:S; [|apply Lo; auto].
      unfold log_fn, choose_fn; rewrite Ao; assert (Kb : RK (bump g)) by (destruct K as [K1 K2 K3]; split; assumption).
      unfold forbidden_fn; rewrite (original_user _ Kb); change (forbidden (bump g)) with (forbidden g); rewrite Af.
      pose proof (unlog_it (bump g) (User u) None Kb (original_user _ Kb)) as U; destruct (unlog_fn (bump g) (User u) None) as [g' y].
      apply (Si g' y None U); [rewrite layer_snoc, S; reflexivity|rewrite existsb_app, S; reflexivity].
    - pose proof (unlog_it g x b K Ao) as U; destruct (unlog_fn g x b) as [g' y].
      apply (Si g' y b U); [rewrite layer_snoc; reflexivity|rewrite existsb_app; cbn; rewrite orb_true_r; reflexivity].
  Qed.
End Layer.

Section InClass.
  Context {P : Type}.
  Variable mro : nat -> list nat.
  Variable bodies : nat -> list (string * member).
  Variable c : nat.
  Variable n : string.
  Variable u : nat.
  Hypothesis H : hierarchy mro bodies.

  Definition inner (e : entry P) : option (fn P) := match e with EObj x | EStatic x | EClassM x => Some x | EData => None end.
  Record WI (w : world P) (ds : list (dec P)) : Prop := {
    w_rk : RK (reg_of w);
    w_it : exists x, (dget String.eqb (own w c) n = Some (EObj x) \/ dget String.eqb (own w c) n = Some (EStatic x)) /\ at_ u (reg_of w) x ds;
    w_others : forall e k, ~ (e = c /\ k = n) -> forall en y, dget String.eqb (own w e) k = Some en -> inner en = Some y -> core y <> User u }.

  Lemma at_frame : forall g g' (x : fn P) ds, frame u g g' -> at_ u g x ds -> at_ u g' x ds.
  Proof.
    intros g g' x ds [F1 F2] [A1 A2 A3 A4 A5 A6]; unfold known in F1; injection F1 as E1 E2; constructor; auto.
    - rewrite F2 by exact A2; exact A3.
    - rewrite E1; exact A5.
    - rewrite E2; exact A6.
  Qed.

  Definition put (w : world P) (g : registry P) (e : nat) (k : string) (en : entry P) : world P :=
    mkWorld g (fun d => if Nat.eqb d e then dset String.eqb (own w e) k en else own w d).
  Lemma put_get : forall w g e k en d q, dget String.eqb (own (put w g e k en) d) q = if Nat.eqb d e && String.eqb q k then Some en else dget String.eqb (own w d) q.
  Proof.
    intros w g e k en d q; cbn; destruct (Nat.eqb_spec d e) as [->|]; [|reflexivity]; cbn [andb].
    rewrite (dget_dset String.eqb String.eqb_spec); destruct (String.eqb q k); reflexivity.
  Qed.
  Lemma WI_elsewhere : forall w ds g e k en, ~ (e = c /\ k = n) -> RK g -> frame u (reg_of w) g -> (forall y, inner en = Some y -> core y <> User u) ->
    WI w ds -> WI (put w g e k en) ds.
  Proof.
    intros w ds g e k en N K F C [W1 (x & D & A) W3].
    assert (Q : Nat.eqb c e && String.eqb n k = false) by (destruct (Nat.eqb_spec c e), (String.eqb_spec n k); try reflexivity; exfalso; apply N; split; congruence).
    constructor; [exact K| |].
    - exists x; rewrite put_get, Q; split; [exact D|exact (at_frame _ _ _ _ F A)].
    - intros d q Nd en' y; rewrite put_get; destruct (Nat.eqb d e && String.eqb q k); [intros Z; injection Z as <-; apply C|apply W3, Nd].
  Qed.
  Lemma WI_here : forall w ds ds' g y en, en = EObj y \/ en = EStatic y -> RK g -> at_ u g y ds' -> WI w ds -> WI (put w g c n en) ds'.
  Proof.
    intros w ds ds' g y en E K A [W1 _ W3]; constructor; [exact K| |].
    - exists y; rewrite put_get, Nat.eqb_refl, String.eqb_refl; cbn [andb]; split; [destruct E as [-> | ->]; auto|exact A].
    - intros d q Nd en' z; rewrite put_get; destruct (Nat.eqb_spec d c), (String.eqb_spec q n); cbn [andb]; try (apply W3, Nd); exfalso; apply Nd; auto.
  Qed.

  Lemma in_class_other : forall w ds e k x, WI w ds -> (k <> n \/ ~ In c (mro e)) -> in_class mro w e k = Ok (Some x) -> core x <> User u.
  Proof.
    intros w ds e k x I N Hx; unfold in_class in Hx; destruct (find (own w) (mro e) k) as [en|] eqn:F; [|discriminate Hx]; injection Hx as Hx.
    destruct (find_some k _ _ _ F) as (before & d & after & E & D & _).
    assert (Nd : ~ (d = c /\ k = n)).
    { intros [-> ->]; destruct N as [N|N]; [apply N; reflexivity|apply N; rewrite E; apply in_or_app; right; left; reflexivity]. }
    pose proof (w_others w ds I d k Nd en) as W3; destruct en as [y|y|y|]; cbn in Hx; try discriminate Hx; injection Hx as <-; rewrite ?core_bound; apply W3; auto.
  Qed.
  Lemma in_class_it : forall w ds, WI w ds -> exists x, in_class mro w c n = Ok (Some x) /\ at_ u (reg_of w) x ds.
  Proof.
    intros w ds [_ (x & D & A) _]; exists x; split; [|exact A]; unfold in_class; destruct (h_self _ _ H c) as [r ->]; cbn.
    destruct D as [-> | ->]; reflexivity.
  Qed.

  Lemma each_elsewhere : forall d e ns w ds, ~ In c (mro e) -> WI w ds -> WI (fst (each_name mro w e ns d)) ds.
  Proof.
    intros d e; induction ns as [|k ns IH]; cbn [each_name]; intros w ds N I; [exact I|].
    destruct (in_class mro w e k) as [[x|]|ex] eqn:Ix; [|exact I|exact I].
    pose proof (in_class_other w ds e k x I (or_intror N) Ix) as C.
    pose proof (deco_frame u (reg_of w) x d (rk_inv _ (w_rk w ds I)) C) as [F C'].
    pose proof (deco_RK (reg_of w) x d (w_rk w ds I)) as K.
    destruct (deco_fn (reg_of w) x d) as [g y]; cbn [fst snd] in *; apply IH; [exact N|].
    assert (Ne : ~ (e = c /\ k = n)).
    { intros [-> _]; apply N; destruct (h_self _ _ H c) as [r ->]; left; reflexivity. }
    apply (WI_elsewhere w ds g e k (EObj y) Ne K F); [|exact I].
    intros z Z; injection Z as <-; exact C'.
  Qed.

  Lemma each_here : forall dd ns w ds, NoDup ns -> (forall k, In k ns -> can_call mro w c k = true) -> WI w ds ->
    WI (fst (each_name mro w c ns (how_of dd))) (if in_dec string_dec n ns then ds ++ [dd] else ds).
  Proof.
    intros dd; induction ns as [|k ns IH]; cbn [each_name]; intros w ds ND Ca I; [exact I|].
    inversion ND as [|? ? Nk ND']; subst.
    pose proof (Ca k (or_introl eq_refl)) as Ck; unfold can_call in Ck.
    destruct (in_class mro w c k) as [[x|]|ex] eqn:Ix; try discriminate Ck.
    pose proof (deco_RK (reg_of w) x (how_of dd) (w_rk w ds I)) as K.
    destruct (deco_fn (reg_of w) x (how_of dd)) as [g y] eqn:E; cbn [fst] in K.
    assert (Ca' : forall q, In q ns -> can_call mro (set_own (mkWorld g (own w)) c k y) c q = true).
    { intros q Hq; unfold can_call; rewrite in_class_set by (intros ->; contradiction); apply Ca; right; exact Hq. }
    destruct (string_dec k n) as [->|Nn].
    - destruct (in_class_it w ds I) as (x' & Ix' & A); rewrite Ix in Ix'; injection Ix' as <-.
      pose proof (deco_at u (reg_of w) x ds dd (w_rk w ds I) A) as A'; rewrite E in A'.
      assert (I' : WI (set_own (mkWorld g (own w)) c n y) (ds ++ [dd])) by (apply (WI_here w ds (ds ++ [dd]) g y (EObj y)); auto).
      specialize (IH _ _ ND' Ca' I'); destruct (in_dec string_dec n ns); [contradiction|].
      destruct (in_dec string_dec n (n :: ns)) as [_|Z]; [exact IH|exfalso; apply Z; left; reflexivity].
    - pose proof (in_class_other w ds c k x I (or_introl Nn) Ix) as C.
      pose proof (deco_frame u (reg_of w) x (how_of dd) (rk_inv _ (w_rk w ds I)) C) as [F C']; rewrite E in F, C'; cbn [fst snd] in *.
      assert (I' : WI (set_own (mkWorld g (own w)) c k y) ds).
      { apply (WI_elsewhere w ds g c k (EObj y)); [intros [_ Q]; contradiction|exact K|exact F| |exact I]; intros z Z; injection Z as <-; exact C'. }
      specialize (IH _ _ ND' Ca' I'); destruct (in_dec string_dec n ns) as [Q|Q], (in_dec string_dec n (k :: ns)) as [Q'|Q']; try exact IH.
      + exfalso; apply Q'; right; exact Q.
      + exfalso; destruct Q' as [Q'|Q']; [congruence|contradiction].
  Qed.

  Lemma names_NoDup : forall (w : world P) (q : string -> bool) d, NoDup (filter q (names mro w d)).
  Proof. intros w q d; apply NoDup_filter; unfold names; apply NoDup_nodup. Qed.

  Lemma kstep_WI : forall w ds o, plain_text mro c o -> WI w ds -> WI (kstep mro w o) (ds ++ concerns c n o).
  Proof.
    intros w ds o T I; destruct o as [e k d|e ms p|e b]; cbn [kstep concerns plain_text] in *.
    - assert (OT : ~ (e = c /\ k = n) -> WI (kstep mro w (KBody e k d)) ds).
      { intros Nz; cbn [kstep]; destruct (dget String.eqb (own w e) k) as [en|] eqn:D; [|exact I].
        pose proof (w_others w ds I e k Nz en) as W3.
        assert (G : forall x, inner en = Some x -> RK (fst (deco_fn (reg_of w) x d)) /\ frame u (reg_of w) (fst (deco_fn (reg_of w) x d)) /\ core (snd (deco_fn (reg_of w) x d)) <> User u)
          by (intros x Hx; split; [apply deco_RK, (w_rk w ds I)|apply deco_frame; [apply (rk_inv _ (w_rk w ds I))|apply W3; auto]]).
        destruct en as [x|x|x|]; cbn [inside].
        4: apply (WI_elsewhere w ds (reg_of w) e k _ Nz (w_rk w ds I) (frame_refl u _)); [intros q Q; discriminate Q|exact I].
        all: specialize (G x eq_refl); destruct (deco_fn (reg_of w) x d) as [g y]; cbn [fst snd] in G; destruct G as (G1 & G2 & G3);
          apply (WI_elsewhere w ds g e k _ Nz G1 G2); [intros q Q; injection Q as <-; exact G3|exact I]. }
      cbn [kstep] in OT; destruct (Nat.eqb_spec e c) as [->|Ne]; cbn [andb]; [|rewrite app_nil_r; apply OT; intros [? ?]; contradiction].
      destruct (String.eqb_spec k n) as [->|Nk]; [|rewrite app_nil_r; apply OT; intros [? ?]; contradiction].
      clear OT.
      destruct (w_it w ds I) as (x & D & A).
      assert (G : exists dd, d = how_of dd /\ match d with HLog p => [AtBody p] | HUnlog b => [Silence b] | _ => [] end = [dd]) by (destruct T as [[p ->]|[b ->]]; [exists (AtBody p)|exists (Silence b)]; split; reflexivity).
      destruct G as (dd & -> & ->).
      pose proof (deco_at u (reg_of w) x ds dd (w_rk w ds I) A) as A'; pose proof (deco_RK (reg_of w) x (how_of dd) (w_rk w ds I)) as K.
      destruct D as [D|D]; rewrite D; cbn [inside]; destruct (deco_fn (reg_of w) x (how_of dd)) as [g y]; cbn [fst] in K.
      + apply (WI_here w ds _ g y (EObj y)); auto.
      + apply (WI_here w ds _ g y (EStatic y)); auto.
    - destruct T as [-> T]; unfold log_class; cbn [each_name].
      assert (G : WI (fst (each_name mro w e (loggable mro w e) (HMeth p))) (ds ++ (if Nat.eqb e c && negb (starts_with "__" n) && negb (ends_with "__" n) then [AtClass p] else []))).
      { destruct (Nat.eqb_spec e c) as [->|Ne]; cbn [andb].
        - change (HMeth p) with (how_of (AtClass p)).
          pose proof (each_here (AtClass p) (loggable mro w c) w ds (names_NoDup w _ c) (fun k Hk => proj1 (andb_prop _ _ (proj2 (proj1 (filter_In _ _ _) Hk)))) I) as G.
          destruct (negb (starts_with "__" n) && negb (ends_with "__" n)) eqn:Q.
          + destruct (in_dec string_dec n (loggable mro w c)) as [_|Z]; [exact G|]; exfalso; apply Z; apply (covered_names mro w c n); [|exact Q].
            unfold can_call; destruct (in_class_it w ds I) as (x & -> & _); reflexivity.
          + rewrite app_nil_r; destruct (in_dec string_dec n (loggable mro w c)) as [Z|_]; [|exact G]; exfalso; apply filter_In in Z as [_ Z]; rewrite Q, andb_false_r in Z; discriminate Z.
        - rewrite app_nil_r; destruct T as [->|T]; [contradiction|]; apply each_elsewhere; assumption. }
      destruct (each_name mro w e (loggable mro w e) (HMeth p)) as [w1 [ex|]]; exact G.
    - unfold unlog_cls; destruct (Nat.eqb_spec e c) as [->|Ne]; cbn [andb].
      + change (HUnlog b) with (how_of (@Silence P b)).
        assert (Cc : forall k, In k (filter (fun k => negb (starts_with "__" k) && can_call mro w c k) (names mro w c)) -> can_call mro w c k = true) by (intros k Hk; apply filter_In in Hk as [_ Hk]; apply andb_prop in Hk; apply Hk).
        pose proof (each_here (Silence b) _ w ds (names_NoDup w _ c) Cc I) as G.
        assert (Cn : can_call mro w c n = true) by (unfold can_call; destruct (in_class_it w ds I) as (x & -> & _); reflexivity).
        destruct (negb (starts_with "__" n)) eqn:Q.
        * match type of G with context [in_dec string_dec n ?l] => destruct (in_dec string_dec n l) as [_|Z] end; [exact G|]; exfalso; apply Z, filter_In; split; [|rewrite Q, Cn; reflexivity].
          pose proof (covered_names mro w c n (fun _ => true) Cn eq_refl) as B; apply filter_In in B; apply B.
        * rewrite app_nil_r; match type of G with context [in_dec string_dec n ?l] => destruct (in_dec string_dec n l) as [Z|_] end; [|exact G]; exfalso; apply filter_In in Z as [_ Z]; rewrite Q in Z; discriminate Z.
      + rewrite app_nil_r; destruct T as [->|T]; [contradiction|]; apply each_elsewhere; assumption.
  Qed.

  Lemma krun_WI : forall os w ds, Forall (plain_text mro c) os -> WI w ds -> WI (krun mro w os) (ds ++ flat_map (concerns c n) os).
  Proof.
    induction os as [|o os IH]; cbn [flat_map krun fold_left]; intros w ds F I; [rewrite app_nil_r; exact I|].
    inversion F; subst; rewrite app_assoc; apply IH; [assumption|]; apply kstep_WI; assumption.
  Qed.

  Lemma start_WI : forall m, In (n, m) (bodies c) -> m = MFun u \/ m = MStatic u ->
    (forall c' n' m', In (n', m') (bodies c') -> function_of m' = Some u -> c' = c /\ n' = n) -> WI (kstart bodies) [].
  Proof.
    intros m Hm M Only; constructor.
    - split; [split; intros w o []|intros w o []|intros w o []].
    - exists (User u); split.
      + cbn [kstart own]; rewrite dget_map, (In_dget _ String.eqb_spec _ _ _ (h_bodies _ _ H c) Hm); destruct M as [-> | ->]; auto.
      + constructor; auto.
    - intros e k N en y; cbn [kstart own]; rewrite dget_map; destruct (dget String.eqb (bodies e) k) as [m'|] eqn:D; [|discriminate].
      apply (dget_In _ String.eqb_spec) in D; intros Q; injection Q as <-; intros Q C; apply N, (Only e k m' D).
      destruct m'; cbn in Q; try discriminate Q; injection Q as <-; cbn in C; try discriminate C; injection C as ->; reflexivity.
  Qed.
End InClass.

(** ** A function under @unlog stays without records *)
Section Silent.
  Context {P : Type}.
  Variable mro : nat -> list nat.
  Variable bodies : nat -> list (string * member).
  Variable u : nat.

  Definition records_it (m : mark P) : bool := match m with ByLog _ => true | ByUnlog _ => false end.
  Definition quiet (g : registry P) (z : fn P) : Prop :=
    (z = User u \/ exists i b t, z = Unlog i b t /\ existsb records_it (marks t) = false) /\ original g z = User u.

  Lemma quiet_marks : forall g z, quiet g z -> existsb records_it (marks z) = false.
  Proof. intros g z [[->|(i & b & t & -> & E)] _]; [reflexivity|exact E]. Qed.
  Lemma dget_dset_cases : forall (d : list (fn P * fn P)) k v z, dget fn_eqb (dset fn_eqb d k v) z = Some v \/ dget fn_eqb (dset fn_eqb d k v) z = dget fn_eqb d z.
  Proof.
    induction d as [|[k' v'] r IH]; cbn; intros k v z.
    - destruct (fn_eqb z k); auto.
    - destruct (fn_eqb k k'); cbn; destruct (fn_eqb z k'); auto.
  Qed.

  Lemma unlog_shape : forall (g : registry P) x b, original g x = User u -> RK g -> exists g1, fst (unlog_fn g x b) =
      mkRegistry (S (fresh g1)) (decorated g1) (dset fn_eqb (unlogged g) (Unlog (fresh g1) b (User u)) (User u)) (forbidden g1) (methods_of g1) /\
      snd (unlog_fn g x b) = Unlog (fresh g1) b (User u).
  Proof.
    intros g x b O K; unfold unlog_fn; destruct (decorator_fn g x) eqn:D.
    - rewrite O; exists (forbid_fn (remove_fn g x) (User u)).
      assert (Eu : unlogged (forbid_fn (remove_fn g x) (User u)) = unlogged g).
      { unfold forbid_fn; destruct (forbidden_fn _ _); cbn [unlogged]; unfold remove_fn; destruct (decorator_fn g x); reflexivity. }
      cbn [fst snd]; unfold bump; cbn [decorated unlogged fresh forbidden methods_of]; rewrite Eu; split; reflexivity.
    - unfold decorator_fn in D; rewrite O in D; apply negb_false_iff in D; destruct x; try discriminate D; cbn in D; apply Nat.eqb_eq in D; subst i.
      exists (forbid_fn g (User u)); assert (Eu : unlogged (forbid_fn g (User u)) = unlogged g) by (unfold forbid_fn; destruct (forbidden_fn _ _); reflexivity).
      cbn [fst snd]; unfold bump; cbn [decorated unlogged fresh forbidden methods_of]; rewrite Eu; split; reflexivity.
  Qed.
  Lemma unlog_quiet : forall g x b, RK g -> original g x = User u -> forall z, quiet g z -> quiet (fst (unlog_fn g x b)) z.
  Proof.
    intros g x b K O z [F Q]; split; [exact F|].
    pose proof (deco_RK g x (HUnlog b) K) as K'; cbn [deco_fn] in K'.
    destruct F as [->|(i & b' & t & -> & _)]; [apply original_user, K'|].
    rewrite original_unlog by apply (rk_log _ K'); destruct (unlog_shape g x b O K) as (g1 & -> & _); cbn [unlogged].
    rewrite original_unlog in Q by apply (rk_log _ K).
    destruct (dget_dset_cases (unlogged g) (Unlog (fresh g1) b (User u)) (User u) (Unlog i b' t)) as [E|E]; rewrite E; [reflexivity|exact Q].
  Qed.

  Lemma deco_quiet : forall g x d, RK g -> among (User u) (forbidden g) = true -> quiet g x ->
    let '(g', y) := deco_fn g x d in RK g' /\ among (User u) (forbidden g') = true /\ quiet g' y /\ forall z, quiet g z -> quiet g' z.
  Proof.
    intros g x d K F Q.
    assert (U : forall g0 x0 b, RK g0 -> among (User u) (forbidden g0) = true -> original g0 x0 = User u -> 
      let '(g', y) := unlog_fn g0 x0 b in RK g' /\ among (User u) (forbidden g') = true /\ quiet g' y /\ forall z, quiet g0 z -> quiet g' z).
    { intros g0 x0 b K0 F0 O0; pose proof (deco_RK g0 x0 (HUnlog b) K0) as K'; cbn [deco_fn] in K'.
      pose proof (unlog_it u g0 x0 b K0 O0) as Z; pose proof (unlog_quiet g0 x0 b K0 O0) as Qz; destruct (unlog_shape g0 x0 b O0 K0) as (g1 & _ & Ey).
      destruct (unlog_fn g0 x0 b) as [g' y]; cbn [fst snd] in *; destruct Z as (_ & _ & Z3 & Z4); split; [exact K'|split; [exact Z4|split; [|exact Qz]]].
      split; [right; subst y; eexists _, _, _; split; reflexivity|exact Z3]. }
    assert (Kb : RK (bump g)) by (destruct K as [K1 K2 K3]; split; assumption).
    destruct Q as [Fx O].
    assert (L : forall p m, let '(g', y) := log_fn g x p m in RK g' /\ among (User u) (forbidden g') = true /\ quiet g' y /\ forall z, quiet g z -> quiet g' z).
    { intros p m; unfold log_fn, choose_fn; rewrite O; unfold forbidden_fn; rewrite (original_user u _ Kb); change (forbidden (bump g)) with (forbidden g); rewrite F.
      exact (U (bump g) (User u) None Kb F (original_user u _ Kb)). }
    destruct d as [p|p|b|]; cbn [deco_fn]; [apply L|apply L|apply U; assumption|].
    rewrite O; split; [exact K|split; [exact F|split; [split; [left; reflexivity|apply original_user, K]|auto]]].
  Qed.

  Record SI (w : world P) : Prop := {
    s_rk : RK (reg_of w);
    s_forb : among (User u) (forbidden (reg_of w)) = true;
    s_all : forall e k en y, dget String.eqb (own w e) k = Some en -> inner en = Some y -> core y = User u ->
      (en = EObj y \/ en = EStatic y) /\ quiet (reg_of w) y }.

  Lemma core_dec : forall x : fn P, {core x = User u} + {core x <> User u}.
  Proof.
    intros x; destruct (core x) as [i|i|i p t|i b t|t v]; try (right; discriminate).
    destruct (Nat.eq_dec i u) as [->|N]; [left; reflexivity|right; congruence].
  Qed.
  Lemma quiet_frame : forall (g g' : registry P) z, frame u g g' -> core z = User u -> quiet g z -> quiet g' z.
  Proof. intros g g' z [_ F] C [Q O]; split; [exact Q|rewrite F by exact C; exact O]. Qed.
  Lemma frame_forb : forall g g' : registry P, frame u g g' -> among (User u) (forbidden g) = true -> among (User u) (forbidden g') = true.
  Proof. intros g g' [F _] A; unfold known in F; injection F as E _; rewrite E; exact A. Qed.

  (** Writing what a decorator made of an entry. *)
  Lemma SI_put : forall w x d e k en, SI w -> (core x = User u -> quiet (reg_of w) x) ->
    inner en = Some (snd (deco_fn (reg_of w) x d)) -> (core x = User u -> en = EObj (snd (deco_fn (reg_of w) x d)) \/ en = EStatic (snd (deco_fn (reg_of w) x d))) ->
    SI (put w (fst (deco_fn (reg_of w) x d)) e k en).
  Proof.
    intros w x d e k en [S1 S2 S3] Q E En.
    pose proof (deco_RK (reg_of w) x d S1) as K; pose proof (proj2 (deco_fn_ok (reg_of w) x d (rk_inv _ S1))) as Sm.
    destruct (core_dec x) as [C|C].
    - pose proof (deco_quiet (reg_of w) x d S1 S2 (Q C)) as Z; specialize (En C); destruct (deco_fn (reg_of w) x d) as [g y]; cbn [fst snd] in *; destruct Z as (_ & Z2 & Z3 & Z4).
      constructor; [exact K|exact Z2|]; intros e' k' en' z; rewrite put_get; destruct (Nat.eqb e' e && String.eqb k' k).
      + intros D I Cz; injection D as <-; rewrite E in I; injection I as <-; split; assumption.
      + intros D I Cz; destruct (S3 e' k' en' z D I Cz) as [A B]; split; [exact A|apply Z4, B].
    - pose proof (deco_frame u (reg_of w) x d (rk_inv _ S1) C) as [F C']; destruct (deco_fn (reg_of w) x d) as [g y]; cbn [fst snd] in *.
      constructor; [exact K|exact (frame_forb _ _ F S2)|]; intros e' k' en' z; rewrite put_get; destruct (Nat.eqb e' e && String.eqb k' k).
      + intros D I Cz; injection D as <-; rewrite E in I; injection I as <-; contradiction.
      + intros D I Cz; destruct (S3 e' k' en' z D I Cz) as [A B]; split; [exact A|exact (quiet_frame _ _ _ F Cz B)].
  Qed.

  Lemma each_SI : forall d e ns w, SI w -> SI (fst (each_name mro w e ns d)).
  Proof.
    intros d e; induction ns as [|k ns IH]; cbn [each_name]; intros w I; [exact I|].
    destruct (in_class mro w e k) as [[x|]|ex] eqn:Ix; [|exact I|exact I].
    assert (Q : core x = User u -> quiet (reg_of w) x).
    { intros C; unfold in_class in Ix; destruct (find (own w) (mro e) k) as [en|] eqn:F; [|discriminate Ix]; injection Ix as Ix.
      destruct (find_some k _ _ _ F) as (before & d' & after & _ & D & _).
      destruct en as [y|y|y|]; cbn in Ix; try discriminate Ix; injection Ix as <-.
      - apply (s_all w I d' k _ y D eq_refl C).
      - apply (s_all w I d' k _ y D eq_refl C).
      - rewrite core_bound in C; destruct (s_all w I d' k _ y D eq_refl C) as [[Z|Z] _]; discriminate Z. }
    pose proof (SI_put w x d e k (EObj (snd (deco_fn (reg_of w) x d))) I Q eq_refl (fun _ => or_introl eq_refl)) as S.
    destruct (deco_fn (reg_of w) x d) as [g y]; apply IH; exact S.
  Qed.
  Lemma krun_SI : forall os w, SI w -> SI (krun mro w os).
  Proof.
    induction os as [|o os IH]; cbn [krun fold_left]; intros w I; [exact I|]; apply IH; clear IH os; destruct o as [e k d|e ms p|e b]; cbn [kstep].
    - destruct (dget String.eqb (own w e) k) as [en|] eqn:D; [|exact I].
      assert (Q : forall x, inner en = Some x -> core x = User u -> quiet (reg_of w) x) by (intros x Hx C; apply (s_all w I e k en x D Hx C)).
      assert (N : forall x, en = EClassM x -> core x <> User u) by (intros x -> C; destruct (s_all w I e k _ x D eq_refl C) as [[Z|Z] _]; discriminate Z).
      destruct en as [x|x|x|]; cbn [inside].
      + pose proof (SI_put w x d e k (EObj (snd (deco_fn (reg_of w) x d))) I (Q x eq_refl) eq_refl (fun _ => or_introl eq_refl)) as S; destruct (deco_fn (reg_of w) x d); exact S.
      + pose proof (SI_put w x d e k (EStatic (snd (deco_fn (reg_of w) x d))) I (Q x eq_refl) eq_refl (fun _ => or_intror eq_refl)) as S; destruct (deco_fn (reg_of w) x d); exact S.
      + pose proof (SI_put w x d e k (EClassM (snd (deco_fn (reg_of w) x d))) I (Q x eq_refl) eq_refl (fun C => match N x eq_refl C with end)) as S; destruct (deco_fn (reg_of w) x d); exact S.
      + destruct I as [S1 S2 S3]; constructor; [exact S1|exact S2|]; intros e' k' en' z E'; change (mkWorld _ _) with (put w (reg_of w) e k EData) in E'.
        rewrite put_get in E'; destruct (Nat.eqb e' e && String.eqb k' k); [injection E' as <-; discriminate|apply (S3 _ _ _ _ E')].
    - unfold log_class.
      pose proof (each_SI (HMeth p) e (match ms with [] => loggable mro w e | _ => ms end) w I) as A.
      destruct (each_name mro w e (match ms with [] => loggable mro w e | _ => ms end) (HMeth p)) as [w1 [ex|]]; cbn [fst] in *; [exact A|apply each_SI, A].
    - apply each_SI, I.
  Qed.
End Silent.

Section LayerProps.
  Context {P : Type}.

  (** C75: the layer of a method or static method, after any decorators of functions and of classes in any order, as long as
      no class that inherits from its class is decorated and class decorators are for all methods. *)
  Theorem C75_layer : forall mro bodies (os : list (kop P)) c n u m a, hierarchy mro bodies -> In (n, m) (bodies c) -> m = MFun u \/ m = MStatic u ->
    (forall c' n' m', In (n', m') (bodies c') -> function_of m' = Some u -> c' = c /\ n' = n) ->
    Forall (plain_text mro c) os -> class_of a = c ->
    exists x, taken mro (program mro bodies os) a n = Ok (Some x) /\ marks x = layer (flat_map (concerns c n) os).
  Proof.
    intros mro bodies os c n u m a H Hm M Only F Ea.
    pose proof (krun_WI mro bodies c n u H os _ [] F (start_WI mro bodies c n u H m Hm M Only)) as [_ (x & D & A) _].
    unfold taken; rewrite Ea; destruct (h_self _ _ H c) as [r ->]; cbn [find]; unfold program.
    destruct D as [D|D]; rewrite D; (destruct a as [k|k i]; [exists x|eexists]); split; try reflexivity; try apply (a_marks _ _ _ _ A).
    cbn [from_instance]; destruct (is_function x); apply (a_marks _ _ _ _ A).
  Qed.

  (** C75: once @unlog was put on a method or static method, or on its class, no decorators of any functions and classes, in any
      order and with any inheritance, make calls of it be recorded. *)
  Theorem C75_unlog_stays : forall mro bodies (os1 os2 : list (kop P)) c n u m, hierarchy mro bodies -> In (n, m) (bodies c) -> m = MFun u \/ m = MStatic u ->
    (forall c' n' m', In (n', m') (bodies c') -> function_of m' = Some u -> c' = c /\ n' = n) ->
    Forall (plain_text mro c) os1 -> existsb silences (flat_map (concerns c n) os1) = true ->
    forall a n' x args, taken mro (program mro bodies (os1 ++ os2)) a n' = Ok (Some x) -> fst (calls x args) = User u ->
      existsb records_it (marks x) = false.
  Proof.
    intros mro bodies os1 os2 c n u m H Hm M Only F Si a n' x args Tx Cx.
    destruct (krun_WI mro bodies c n u H os1 _ [] F (start_WI mro bodies c n u H m Hm M Only)) as [W1 (y & D & A) W3]; cbn [app] in *.
    assert (I1 : SI u (krun mro (kstart bodies) os1)).
    { constructor; [exact W1|rewrite (a_forb _ _ _ _ A); exact Si|].
      intros e k en z De Hz Cz; destruct (Nat.eq_dec e c) as [->|N]; [destruct (string_dec k n) as [->|N]|].
      - assert (Q : quiet u (reg_of (krun mro (kstart bodies) os1)) y).
        { split; [right|apply (a_orig _ _ _ _ A)]; pose proof (a_marks _ _ _ _ A) as Mk; unfold layer in Mk; rewrite Si in Mk; pose proof (a_orig _ _ _ _ A) as O.
          destruct y as [i|i|i p t|i b t|t v]; cbn [marks] in Mk; try discriminate Mk.
          - injection Mk as _ Mk; exists i, b, t; split; [reflexivity|rewrite Mk; reflexivity].
          - exfalso; unfold original in O; destruct W1 as [_ K1 K2].
            destruct (dget fn_eqb (decorated _) (Bound t v)) as [o|] eqn:E1; [destruct (dget_fn _ _ _ E1) as (w' & Hw & Z); destruct (K1 _ _ Hw) as (? & ? & ? & ->); discriminate Z|].
            destruct (dget fn_eqb (unlogged _) (Bound t v)) as [o|] eqn:E2; [destruct (dget_fn _ _ _ E2) as (w' & Hw & Z); destruct (K2 _ _ Hw) as (? & ? & ? & ->); discriminate Z|].
            discriminate O. }
        destruct D as [D|D]; rewrite D in De; injection De as <-; cbn in Hz; injection Hz as <-; split; auto.
      - destruct (W3 c k (fun Z => N (proj2 Z)) en z De Hz Cz).
      - destruct (W3 e k (fun Z => N (proj1 Z)) en z De Hz Cz). }
    pose proof (krun_SI mro u os2 _ I1) as I2; unfold program, krun in *; rewrite fold_left_app in Tx.
    unfold taken in Tx; destruct (find _ (mro (class_of a)) n') as [en|] eqn:Fi; [|discriminate Tx]; injection Tx as Tx.
    destruct (find_some n' _ _ _ Fi) as (before & d & after & _ & De & _).
    assert (G : forall z, inner en = Some z -> (forall b, fst (calls x b) = fst (calls z b)) -> marks x = marks z -> existsb records_it (marks x) = false).
    { intros z Hz Ez Em; rewrite Em; destruct (s_all u _ I2 d n' en z De Hz) as [_ Q]; [|exact (quiet_marks u _ _ Q)].
      unfold core; rewrite <- Ez, <- Cx; apply calls_core. }
    assert (Bd : forall (z : fn P) v b, fst (calls (Bound z v) b) = fst (calls z b)) by (intros z v b; cbn; apply calls_core).
    destruct en as [z|z|z|]; destruct a as [k|k i]; cbn in Tx; try discriminate Tx; injection Tx as <-; try (apply (G z eq_refl); [reflexivity|reflexivity]).
    - apply (G z eq_refl); destruct (is_function z); auto.
    - apply (G z eq_refl); auto.
    - apply (G z eq_refl); auto.
  Qed.
End LayerProps.

Print Assumptions C75_layer.
Print Assumptions C75_unlog_stays.

(** @unlog at the function wins over a later @log of the class; the last class decorator wins; @log at the function wins over
    the class. *)
Definition only_here (bodies : nat -> list (string * member)) (c : nat) (n : string) (u : nat) : Prop :=
  forall c' n' m', In (n', m') (bodies c') -> function_of m' = Some u -> c' = c /\ n' = n.
Lemma ex_only : only_here ex_bodies 0 "meth" 10 /\ only_here ex_bodies 0 "stat" 11.
Proof.
  split; intros c' n' m'; destruct c' as [|[|[|c']]]; cbn; intros Hi F; try contradiction;
    repeat match goal with Hi : _ \/ _ |- _ => destruct Hi as [Hi|Hi] | Hi : False |- _ => destruct Hi | Hi : (_, _) = (_, _) |- _ => injection Hi as <- <- end;
    try discriminate F; split; reflexivity.
Qed.
Definition lay_os : list (kop nat) := [KLog 0 [] 1; KBody 0 "stat" (HLog 7); KBody 2 "meth" (HUnlog None); KLog 0 [] 2; KLog 2 [] 3].
Example ex_layer :
  layer (flat_map (concerns 0 "meth") lay_os) = [ByLog 2] /\ layer (flat_map (concerns 0 "stat") lay_os) = [ByLog 7] /\
  layer (flat_map (concerns 0 "meth") (lay_os ++ [KUnlog 0 (Some true)])) = [ByUnlog (Some true)] /\
  layer (flat_map (concerns 0 "meth") (lay_os ++ [KUnlog 0 (Some true); KLog 0 [] 4])) = [ByUnlog None].
Proof. vm_compute; repeat split. Qed.
Example ex_layer_by_theorem : exists x, taken ex_mro (program ex_mro ex_bodies lay_os) (OnInst 0 5) "stat" = Ok (Some x) /\ marks x = [ByLog 7].
Proof.
  apply (C75_layer ex_mro ex_bodies lay_os 0 "stat" 11 (MStatic 11) (OnInst 0 5) ex_hierarchy); [cbn; tauto|right; reflexivity|apply ex_only| |reflexivity].
  apply Forall_forall; intros o Ho; destruct Ho as [<-|[<-|[<-|[<-|[<-|[]]]]]]; cbn [plain_text].
  - split; [reflexivity|left; reflexivity].
  - left; eexists; reflexivity.
  - right; eexists; reflexivity.
  - split; [reflexivity|left; reflexivity].
  - split; [reflexivity|right; intros [Q|[]]; discriminate Q].
Qed.

(** Without the condition on inheriting classes C75_layer fails: after @log of the class, of a class that inherits from it, and
    of the class again, every call is recorded twice. *)
Theorem C75_two_layers_refuted : exists mro bodies (os : list (kop nat)) c n u, hierarchy mro bodies /\ In (n, MFun u) (bodies c) /\ only_here bodies c n u /\
  exists x p q, taken mro (program mro bodies os) (OnInst c 5) n = Ok (Some x) /\ marks x = [ByLog p; ByLog q] /\
    layer (flat_map (concerns c n) os) = [ByLog p].
Proof.
  exists ex_mro, ex_bodies, [KLog 0 [] 1; KLog 1 [] 2; KLog 0 [] 3], 0, "meth", 10.
  split; [exact ex_hierarchy|split; [left; reflexivity|split; [apply ex_only|]]].
  eexists _, 3, 1; vm_compute; repeat split.
Qed.

Print Assumptions C75_two_layers_refuted.

(** The method is under @unlog; its class and a class that inherits from it are decorated afterwards. *)
Example ex_unlog_stays :
  match taken ex_mro (program ex_mro ex_bodies [KBody 0 "meth" (HUnlog None); KLog 1 [] 2; KLog 0 ["meth"] 1; KLog 1 ["meth"] 3]) (OnInst 1 5) "meth" with
  | Ok (Some x) => calls x [] = (User 10, [VInst 5]) /\ marks x = [@ByUnlog nat None] | _ => False end.
Proof. vm_compute; split; reflexivity. Qed.
