(** Proofs about settings and levels. *)
From Verif Require Import Base Settings_Model Settings_Spec.

Section Proofs.
  Variable isident : string -> bool.
  Variable class_or_callable : nat -> bool.
  Variable is_module : nat -> bool.
  Variable has_loads has_dumps loads_callable dumps_callable : nat -> bool.
  Variable debug : bool.
  Variable possible_level_name : string -> bool.

  Open Scope string_scope.
  Open Scope list_scope.

  Definition json_like (o : nat) : bool := is_module o && (has_loads o && (has_dumps o && (loads_callable o && (dumps_callable o && true)))).
  Notation pts := (points isident class_or_callable is_module has_loads has_dumps loads_callable dumps_callable debug).
  Notation c0 := (cfg0 isident class_or_callable is_module has_loads has_dumps loads_callable dumps_callable debug).
  Notation setp := (set_point isident class_or_callable is_module has_loads has_dumps loads_callable dumps_callable debug).
  Notation cset := (config_set isident class_or_callable is_module has_loads has_dumps loads_callable dumps_callable debug).
  Notation step := (cfg_step isident class_or_callable is_module has_loads has_dumps loads_callable dumps_callable debug possible_level_name).
  Notation spec c := (spec_set isident class_or_callable json_like (val c) (dget String.eqb (lv (lvls c)))).
  Notation lgl := (legal isident json_like).

  Definition names : list string := map fst pts.

  Record CI (c : cfg) : Prop := {
    ci_keys : dkeys (vals c) = names;
    ci_legal : forall n v, dget String.eqb (vals c) n = Some v -> lgl n v;
    ci_pool : zero (val c "pool_size") -> zero (val c "max_queue_size");
    ci_logging : val c "integration_with_logging" = VBool false -> val c "logging_off" = VBool false;
    ci_started : In "started" (changed c) <-> val c "started" = VBool true;
    ci_levels : forall n v, dget String.eqb (lv (lvls c)) n = Some v -> nonneg v
  }.

  Lemma names_nodup : NoDup names.
  Proof. cbv; repeat (constructor; [cbv; intuition discriminate|]); constructor. Qed.

  Lemma val_in : forall c n, CI c -> In n names -> dget String.eqb (vals c) n = Some (val c n).
  Proof.
    intros c n C Hn; unfold val; destruct (dget String.eqb (vals c) n) as [v|] eqn:E; [reflexivity|].
    apply (dget_None String.eqb String.eqb_spec) in E; rewrite (ci_keys _ C) in E; contradiction.
  Qed.

  Lemma val_legal : forall c n, CI c -> In n names -> lgl n (val c n).
  Proof. intros c n C Hn; apply (ci_legal _ C); apply val_in; assumption. Qed.

  Lemma eq0_zero : forall v, nonneg v -> eq0 v = zero_b v.
  Proof. intros v [(b & ->)|(z & -> & Hz)]; [destruct b; reflexivity|]; cbn; destruct z; reflexivity. Qed.
  Lemma zero_b_spec : forall v, zero_b v = true <-> zero v.
  Proof.
    intros v; unfold zero; split.
    - destruct v as [|[]|[]| | | |]; cbn; try discriminate; auto.
    - intros [-> | ->]; reflexivity.
  Qed.
  Lemma eq_true_b : forall v, boolean v -> eq_true v = true_b v.
  Proof. intros v (b & ->); destruct b; reflexivity. Qed.

  Lemma In_existsb : forall n l, existsb (String.eqb n) l = true <-> In n l.
  Proof.
    intros n l; rewrite existsb_exists; split.
    - intros (x & Hx & E); apply String.eqb_eq in E; subst; exact Hx.
    - intros H; exists n; split; [exact H|apply String.eqb_refl].
  Qed.

  Lemma legal_flag : forall n v, lgl n v -> In n flags -> boolean v.
  Proof. intros n v (_ & _ & _ & H & _); exact H. Qed.

  Lemma legal_size : forall n v, lgl n v -> In n ["pool_size"; "max_queue_size"] -> nonneg v.
  Proof. intros n v (H & _); exact H. Qed.
  Lemma legal_started : forall n v, lgl n v -> In n ["started"] -> boolean v.
  Proof. intros n v (_ & _ & H & _); exact H. Qed.

  (** One assignment does what the table says. *)
  Lemma set_point_spec : forall c n v, CI c ->
    setp c n v = match spec c n v with
                 | Ok w => (mkCfg (dset String.eqb (vals c) n w) (n :: changed c) (lvls c), Ok tt)
                 | Err e => (c, Err e)
                 end.
  Proof.
    intros c n v C.
    destruct (in_dec string_dec n names) as [Hn|Hn].
    - assert (forall m, In m names -> lgl m (val c m)) as L by (intros m Hm; apply val_legal; assumption).
      assert (nonneg (val c "pool_size")) as Np by (apply (legal_size "pool_size"); [apply L|]; apply In_existsb; reflexivity).
      assert (nonneg (val c "max_queue_size")) as Nm by (apply (legal_size "max_queue_size"); [apply L|]; apply In_existsb; reflexivity).
      assert (boolean (val c "logging_off")) as Nl by (apply (legal_flag "logging_off"); [apply L|]; apply In_existsb; reflexivity).
      assert (boolean (val c "integration_with_logging")) as Ni by (apply (legal_flag "integration_with_logging"); [apply L|]; apply In_existsb; reflexivity).
      assert (boolean (val c "started")) as Ns by (apply (legal_started "started"); [apply L|]; apply In_existsb; reflexivity).
      unfold names in Hn; cbn [map fst points] in Hn.
      unfold set_point, spec_set.
      repeat (destruct Hn as [<-|Hn]); [..|destruct Hn];
        match goal with |- context [dget String.eqb pts ?n] =>
          let p := eval hnf in (dget String.eqb pts n) in
          change (dget String.eqb pts n) with p end;
        match goal with |- context [dget String.eqb (table ?a ?b ?d ?e ?f) ?n] =>
          let p := eval hnf in (dget String.eqb (table a b d e f) n) in
          change (dget String.eqb (table a b d e f) n) with p end;
        unfold flag; cbn [p_once p_before_start p_proves p_converter p_conflicts forallb andb conflicting existsb fst snd];
        rewrite ?andb_false_r; cbn [andb orb].
      + (* pool_size *)
        rewrite (eq0_zero _ Nm), orb_false_r, andb_true_r; destruct v as [|b|z|cl id|s|pb|o]; try reflexivity.
        * cbn; destruct b; cbn; [reflexivity|]; destruct (zero_b (val c "max_queue_size")); reflexivity.
        * cbn [is_int ge0 andb negb nonneg_b eq0]; destruct (0 <=? z)%Z eqn:Ez; [|reflexivity]; cbn [negb].
          replace (z =? 0)%Z with (zero_b (VInt z)) by (destruct z; reflexivity).
          destruct (zero_b (VInt z)), (zero_b (val c "max_queue_size")); reflexivity.
      + (* max_queue_size *)
        rewrite (eq0_zero _ Np), orb_false_r, andb_true_r; destruct v as [|b|z|cl id|s|pb|o]; try reflexivity.
        * cbn; destruct b; cbn; [|reflexivity]; destruct (zero_b (val c "pool_size")); reflexivity.
        * cbn [is_int ge0 andb negb nonneg_b eq0]; destruct (0 <=? z)%Z eqn:Ez; [|reflexivity]; cbn [negb].
          replace (z =? 0)%Z with (zero_b (VInt z)) by (destruct z; reflexivity).
          destruct (zero_b (VInt z)), (zero_b (val c "pool_size")); reflexivity.
      + (* started *)
        rewrite andb_true_r; destruct (existsb (String.eqb "started") (changed c)) eqn:E.
        * apply In_existsb in E; apply (ci_started _ C) in E; rewrite E; reflexivity.
        * assert (true_b (val c "started") = false) as ->.
          { destruct Ns as ([|] & Eb); rewrite Eb; [|reflexivity].
            apply (ci_started _ C) in Eb; apply In_existsb in Eb; congruence. }
          destruct v as [|[]|z|cl id|s|pb|o]; reflexivity.
      + destruct v as [|b|z|cl id|s|pb|o]; try reflexivity; destruct z; reflexivity.
      + destruct v as [|b|z|cl id|s|pb|o]; try reflexivity; destruct z; reflexivity.
      + destruct v as [|b|z|cl id|s|pb|o]; try reflexivity; destruct z; reflexivity.
      + destruct v as [|b|z|cl id|s|pb|o]; try reflexivity; cbn; destruct (isident s); reflexivity.
      + destruct v as [|b|z|cl id|s|pb|o]; reflexivity.
      + destruct v as [|b|z|[] id|s|pb|o]; try reflexivity; cbn; destruct (0 <=? z)%Z; reflexivity.
      + destruct v as [|[]|z|[] id|s|pb|o]; try reflexivity; cbn; destruct z; reflexivity.
      + destruct v as [|[]|z|[] id|s|pb|o]; try reflexivity; cbn; destruct z; reflexivity.
      + destruct v as [|b|z|cl id|s|pb|o]; try reflexivity; cbn; destruct (class_or_callable o); reflexivity.
      + destruct v as [|b|z|cl id|s|pb|o]; try reflexivity; cbn [on_obj]; fold (json_like o); unfold require.
        change (is_module o && (has_loads o && (has_dumps o && (loads_callable o && (dumps_callable o && true))))) with (json_like o).
        destruct (json_like o); reflexivity.
      + destruct v as [|b|z|cl id|s|pb|o]; try reflexivity; cbn [is_str andb politic_of].
        destruct (String.eqb s "all"); [reflexivity|]; destruct (String.eqb s "if_debug"); reflexivity.
      + destruct v as [|b|z|cl id|s|pb|o]; reflexivity.
      + destruct v as [|b|z|cl id|s|pb|o]; reflexivity.
      + destruct v as [|b|z|cl id|s|pb|o]; reflexivity.
      + destruct v as [|b|z|cl id|s|pb|o]; reflexivity.
      + destruct v as [|b|z|cl id|s|pb|o]; reflexivity.
      + destruct v as [|b|z|cl id|s|pb|o]; reflexivity.
      + destruct v as [|b|z|cl id|s|pb|o]; reflexivity.
      + destruct v as [|b|z|cl id|s|pb|o]; reflexivity.
      + rewrite (eq_true_b _ Nl); destruct v as [|[]|z|cl id|s|pb|o]; try reflexivity; cbn.
        destruct (true_b (val c "logging_off")); reflexivity.
      + rewrite (eq_true_b _ Ni); destruct v as [|[]|z|cl id|s|pb|o]; try reflexivity; cbn.
        destruct (true_b (val c "integration_with_logging")); reflexivity.
      + destruct v as [|b|z|cl id|s|pb|o]; reflexivity.
    - unfold set_point, spec_set.
      assert (dget String.eqb pts n = None) as -> by (apply (dget_None String.eqb String.eqb_spec); exact Hn).
      assert (dget String.eqb (table isident class_or_callable json_like (val c) (dget String.eqb (lv (lvls c)))) n = None) as ->; [|reflexivity].
      apply (dget_None String.eqb String.eqb_spec); intros H; apply Hn.
      cbv [dkeys map fst table In] in H; cbv [names map fst points In]; tauto.
  Qed.

  (** What is accepted is legal. *)
  Lemma spec_known : forall c n v w, spec c n v = Ok w -> In n names.
  Proof.
    intros c n v w E; unfold spec_set in E.
    destruct (dget String.eqb (table isident class_or_callable json_like (val c) (dget String.eqb (lv (lvls c)))) n) as [f|] eqn:Ef; [|discriminate].
    apply (dget_In String.eqb String.eqb_spec) in Ef.
    cbv [table In] in Ef; cbv [names map fst points In].
    repeat (destruct Ef as [Ef|Ef]; [injection Ef as <- _; tauto|]); destruct Ef.
  Qed.

  Ltac other := let H := fresh in intros H; exfalso; repeat (destruct H as [H|H]; [discriminate H|]); exact H.
  Ltac fin t := unfold legal; repeat apply conj; try (apply In_existsb; reflexivity); try other; intros _; t.

  Lemma nonneg_b_spec : forall v, nonneg_b v = true -> nonneg v.
  Proof.
    intros [|b|z|cl id|s|pb|o] H; try discriminate; [left; eauto|right; exists z; split; [reflexivity|]].
    apply Z.leb_le; exact H.
  Qed.

  Lemma spec_legal : forall c n v w, CI c -> spec c n v = Ok w -> lgl n w.
  Proof.
    intros c n v w C E.
    assert (In n names) as Hn by (eapply spec_known; exact E).
    assert (forall v w, spec_level (dget String.eqb (lv (lvls c))) v = Ok w -> nonneg w) as Lv.
    { clear E v w; intros v w E; unfold spec_level in E; destruct v as [|b|z|cl id|s|pb|o]; try discriminate.
      - destruct (0 <=? z)%Z eqn:Ez; [injection E as <-|discriminate]; apply nonneg_b_spec; exact Ez.
      - destruct (dget String.eqb (lv (lvls c)) s) as [w'|] eqn:Es; [injection E as <-|discriminate].
        apply (ci_levels _ C) in Es; exact Es. }
    assert (forall v w, spec_flag v = Ok w -> boolean w) as Fl.
    { clear E v w; intros v w E; destruct v; try discriminate; injection E as <-; eexists; reflexivity. }
    unfold names in Hn; cbn [map fst points] in Hn; unfold spec_set in E.
    repeat (destruct Hn as [<-|Hn]); [..|destruct Hn];
      match type of E with context [dget String.eqb (table ?a ?b ?d ?e ?f) ?n] =>
        let p := eval hnf in (dget String.eqb (table a b d e f) n) in
        change (dget String.eqb (table a b d e f) n) with p in E end; cbv beta iota in E;
      try (fin ltac:(eapply Fl; exact E)); try (fin ltac:(eapply Lv; exact E)).
    - fin ltac:(idtac). unfold require in E; destruct (nonneg_b v) eqn:Ev; cbn [andb] in E; [|discriminate].
      destruct (_ || _) in E; [injection E as <-|discriminate]; apply nonneg_b_spec; exact Ev.
    - fin ltac:(idtac). unfold require in E; destruct (nonneg_b v) eqn:Ev; cbn [andb] in E; [|discriminate].
      destruct (_ || _) in E; [injection E as <-|discriminate]; apply nonneg_b_spec; exact Ev.
    - fin ltac:(idtac). destruct (true_b (val c "started")); [discriminate|].
      unfold require in E; destruct v as [|[]|z|cl id|s|pb|o]; try discriminate; injection E as <-; eexists; reflexivity.
    - fin ltac:(idtac). destruct v as [|b|z|cl id|s|pb|o]; try discriminate; [injection E as <-; auto|].
      unfold require in E; destruct (isident s) eqn:Es; [injection E as <-|discriminate]; right; eauto.
    - fin ltac:(idtac). destruct v as [|b|z|cl id|s|pb|o]; try discriminate.
      + injection E as <-; left; left; eauto.
      + unfold require, nonneg_b in E; destruct (0 <=? z)%Z eqn:Ez; [injection E as <-|discriminate].
        left; apply nonneg_b_spec; exact Ez.
      + destruct cl; try discriminate; injection E as <-; right; eexists _, _; split; [reflexivity|auto|reflexivity|auto].
    - fin ltac:(idtac). destruct v as [|[]|z|cl id|s|pb|o]; try discriminate.
      + injection E as <-; right; reflexivity.
      + unfold require in E; destruct z; try discriminate; injection E as <-; left; eexists; split; [reflexivity|apply Pos2Z.is_pos].
    - fin ltac:(idtac). destruct v as [|[]|z|cl id|s|pb|o]; try discriminate.
      + injection E as <-; right; left; reflexivity.
      + unfold require in E; destruct z; try discriminate; injection E as <-; left; eexists; split; [reflexivity|apply Pos2Z.is_pos].
      + destruct cl; try discriminate; injection E as <-; right; right; eexists; reflexivity.
    - fin ltac:(idtac). destruct v as [|b|z|cl id|s|pb|o]; try discriminate.
      unfold require in E; destruct (json_like o) eqn:Eo; [injection E as <-; eauto|discriminate].
    - fin ltac:(idtac). destruct v as [|b|z|cl id|s|pb|o]; try discriminate.
      destruct (String.eqb s "all"); [injection E as <-; eauto|].
      destruct (String.eqb s "if_debug"); [injection E as <-; eauto|discriminate].
    - fin ltac:(idtac). unfold require in E; destruct v as [|b|z|cl id|s|pb|o]; try discriminate.
      destruct (_ || _) in E; [injection E as <-; eexists; reflexivity|discriminate].
    - fin ltac:(idtac). unfold require in E; destruct v as [|b|z|cl id|s|pb|o]; try discriminate.
      destruct (_ || _) in E; [injection E as <-; eexists; reflexivity|discriminate].
  Qed.

  Lemma val_dset : forall c n w chg L m,
    val (mkCfg (dset String.eqb (vals c) n w) chg L) m = if String.eqb m n then w else val c m.
  Proof.
    intros c n w chg L m; unfold val; cbn [vals]; rewrite (dget_dset String.eqb String.eqb_spec).
    destruct (String.eqb m n); reflexivity.
  Qed.

  Lemma CI_set_point : forall c n v, CI c -> CI (fst (setp c n v)).
  Proof.
    intros c n v C; rewrite (set_point_spec c n v C).
    destruct (spec c n v) as [w|e] eqn:E; [|exact C]; cbn [fst].
    pose proof (spec_legal c n v w C E) as Lw.
    pose proof (spec_known _ _ _ _ E) as Hn.
    constructor; cbn [vals changed lvls].
    - rewrite dkeys_dset by exact String.eqb_spec.
      assert (dmem String.eqb (vals c) n = true) as ->; [|apply (ci_keys _ C)].
      apply (dmem_true String.eqb String.eqb_spec); rewrite (ci_keys _ C); exact Hn.
    - intros m u Hm; rewrite (dget_dset String.eqb String.eqb_spec) in Hm.
      destruct (String.eqb_spec m n) as [Eq|Hne]; [injection Hm as <-; rewrite Eq; exact Lw|].
      apply (ci_legal _ C); exact Hm.
    - rewrite !val_dset; destruct (String.eqb_spec "pool_size" n) as [Eq|H1]; [subst n|].
      + change (String.eqb "max_queue_size" "pool_size") with false; cbv iota; intros Hz.
        cbn in E; unfold require in E; apply zero_b_spec in Hz.
        destruct (nonneg_b v); [|discriminate]; cbn [andb] in E.
        destruct (negb (zero_b v) || zero_b (val c "max_queue_size")) eqn:Eo; [injection E as ->|discriminate].
        rewrite Hz in Eo; apply zero_b_spec; exact Eo.
      + destruct (String.eqb_spec "max_queue_size" n) as [Eq|H2]; [subst n|apply (ci_pool _ C)].
        intros Hz; cbn in E; unfold require in E; apply zero_b_spec in Hz.
        destruct (nonneg_b v); [|discriminate]; cbn [andb] in E.
        rewrite Hz, orb_false_r in E; destruct (zero_b v) eqn:Ez; [injection E as ->|discriminate].
        apply zero_b_spec; exact Ez.
    - rewrite !val_dset; destruct (String.eqb_spec "integration_with_logging" n) as [Eq|H1]; [subst n|].
      + change (String.eqb "logging_off" "integration_with_logging") with false; cbv iota; intros ->.
        cbn in E; unfold require in E; destruct v as [|b|z|cl id|s|pb|o]; try discriminate.
        destruct (b || negb (true_b (val c "logging_off"))) eqn:Eo; [injection E as ->|discriminate]; cbn in Eo.
        assert (boolean (val c "logging_off")) as (b & Eb).
        { apply (legal_flag "logging_off"); [apply val_legal; [exact C|]|]; apply In_existsb; reflexivity. }
        rewrite Eb in Eo |- *; destruct b; [discriminate|reflexivity].
      + destruct (String.eqb_spec "logging_off" n) as [Eq|H2]; [subst n|apply (ci_logging _ C)].
        intros Hz; cbn in E; rewrite Hz in E; unfold require in E; destruct v as [|b|z|cl id|s|pb|o]; try discriminate.
        cbn [true_b] in E; rewrite orb_false_r in E; destruct b; [discriminate|injection E as <-; reflexivity].
    - cbn [In]; rewrite val_dset; destruct (String.eqb_spec "started" n) as [Eq|H1].
      + subst n; split; [intros _|auto]; cbn in E.
        destruct (true_b (val c "started")); [discriminate|]; unfold require in E.
        destruct v as [|[]|z|cl id|s|pb|o]; try discriminate; injection E as <-; reflexivity.
      + rewrite <- (ci_started _ C); split; [intros [H|H]; [congruence|exact H]|auto].
    - apply (ci_levels _ C).
  Qed.

  Lemma CI_set : forall kw c, CI c -> CI (fst (cset c kw)).
  Proof.
    induction kw as [|[n v] r IH]; intros c C; cbn [config_set]; [exact C|].
    pose proof (CI_set_point c n v C) as C'; destruct (setp c n v) as [c' [u|e]]; cbn [fst] in C'; [apply IH; exact C'|exact C'].
  Qed.

  Lemma CI_lvls : forall c L, CI c -> (forall n v, dget String.eqb (lv L) n = Some v -> nonneg v) ->
    CI (mkCfg (vals c) (changed c) L).
  Proof. intros c L [A B D E F G] H; constructor; assumption. Qed.

  Lemma nonneg_levels_set : forall L n v, nonneg v ->
    (forall n v, dget String.eqb (lv L) n = Some v -> nonneg v) ->
    forall m u, dget String.eqb (lv (fst (levels_set L (Some n) v))) m = Some u -> nonneg u.
  Proof.
    intros L n v Nv H m u Hm; unfold levels_set in Hm; destruct (is_int v); [|apply (H m u Hm)].
    cbn [fst lv] in Hm; rewrite (dget_dset String.eqb String.eqb_spec) in Hm.
    destruct (String.eqb m n); [injection Hm as <-; exact Nv|apply (H m u Hm)].
  Qed.

  Lemma ge0_nonneg : forall v, is_int v = true -> ge0 v = true -> nonneg v.
  Proof. intros [|b|z|cl id|s|pb|o] H1 H2; try discriminate; apply nonneg_b_spec; exact H2 || reflexivity. Qed.

  Notation clev := (config_levels possible_level_name).

  Lemma CI_levels : forall kw c, CI c -> CI (fst (clev c kw)).
  Proof.
    induction kw as [|[n v] r IH]; intros c C; cbn [config_levels]; [exact C|].
    destruct (is_int v) eqn:E1; cbn [negb]; [|exact C].
    destruct (ge0 v) eqn:E2; cbn [negb]; [|exact C].
    destruct (possible_level_name n); cbn [negb]; [|exact C].
    pose proof (nonneg_levels_set (lvls c) n v (ge0_nonneg v E1 E2) (ci_levels _ C)) as H.
    destruct (levels_set (lvls c) (Some n) v) as [L [u|e]]; [apply IH|]; apply CI_lvls; assumption.
  Qed.

  Lemma CI_standard : forall c, CI c -> CI (standard_levels c).
  Proof.
    intros c C; apply CI_lvls; [exact C|].
    assert (Forall (fun x => (0 <= snd x)%Z) standard) as St by (unfold standard; repeat (apply Forall_cons; [cbn; lia|]); apply Forall_nil).
    generalize (lvls c), (ci_levels _ C); revert St; generalize standard as st; clear c C.
    induction st as [|[[up low] z] st IH]; intros St L HL; cbn [fold_left]; [exact HL|].
    inversion St as [|x l Hz St']; subst; cbn [snd] in Hz; apply (IH St').
    assert (nonneg (VInt z)) by (right; eauto).
    apply nonneg_levels_set; [assumption|]; apply nonneg_levels_set; assumption.
  Qed.

  Hypothesis json_default : json_like json_obj = true.

  Lemma CI_init : CI c0.
  Proof.
    constructor.
    - unfold cfg0; cbn [vals]; unfold dkeys, names; rewrite map_map; reflexivity.
    - intros n v H; apply (dget_In String.eqb String.eqb_spec) in H.
      cbn [cfg0 vals map fst snd points p_default flag] in H.
      repeat (destruct H as [H|H]; [injection H as <- <-|]); [..|destruct H];
        try (fin ltac:(eexists; reflexivity));
        try (fin ltac:(right; eexists; split; [reflexivity|lia]));
        try (fin ltac:(left; reflexivity)).
      + fin ltac:(idtac); right; exists FPos, 1; auto.
      + fin ltac:(idtac); left; eexists; split; [reflexivity|lia].
      + fin ltac:(idtac); right; right; eexists; reflexivity.
      + fin ltac:(idtac); eexists; split; [reflexivity|exact json_default].
    - intros _; left; reflexivity.
    - intros H; discriminate H.
    - split; [intros []|intros H; discriminate H].
    - intros n v H; discriminate H.
  Qed.

  Theorem CI_reachable : forall ops, CI (fold_left step ops c0).
  Proof.
    intros ops; generalize CI_init; generalize c0 as c; induction ops as [|o ops IH]; intros c C; [exact C|].
    cbn [fold_left]; apply IH; destruct o as [kw|kw|]; cbn [cfg_step]; [apply CI_set|apply CI_levels|apply CI_standard]; exact C.
  Qed.
End Proofs.
