(** Property C70: every registered level can be used as an attribute of the loggers and hides nothing of them. *)
From Coq Require Import Lia.
From Verif Require Import Base Field_Model Settings_Model Settings_Spec Settings_Proofs Settings_Props Level_Model.
From Verif Require Handle_Model Call_Model Block_Props.
Local Open Scope string_scope.
Local Open Scope list_scope.

Lemma existsb_In : forall n l, existsb (String.eqb n) l = true <-> In n l.
Proof.
  intros n l; rewrite existsb_exists; split; [intros (x & H & E); apply String.eqb_eq in E; subst; exact H|intros H; exists n; split; [exact H|apply String.eqb_refl]].
Qed.

Section C70.
  Variable isident : string -> bool.
  Variable class_or_callable : nat -> bool.
  Variable is_module : nat -> bool.
  Variable has_loads has_dumps loads_callable dumps_callable : nat -> bool.
  Variable debug : bool.
  Notation possible := (possible_level_name isident).
  Notation conf := (configured isident class_or_callable is_module has_loads has_dumps loads_callable dumps_callable debug possible).
  Notation clev := (config_levels possible).
  Notation hist := (history possible).
  Notation names ops := (get_all_names (lvls (conf ops))).

  (** The public attributes of flog and of log. *)
  Definition taken_by_flog : list string :=
    ["create_log_item"; "engine"; "engine_fields"; "get_arg"; "get_base_args_dict"; "get_class_name"; "get_extra_fields"; "get_handlers"; "global_handlers";
     "in_place_fields"; "log_exception_info"; "log_normal_info"; "resolve_normal_level"; "settings"].
  Definition taken_by_log : list string := ["message"; "suppress"].
  (** What the documentation says about a name: python identifier, does not begin with an underscore, is not taken by the loggers. *)
  Definition allowed (n : string) : Prop :=
    isident n = true /\ (forall r, n <> String "_" r) /\ ~ In n taken_by_flog /\ ~ In n taken_by_log.
  Lemma taken_same : forall n, In n (flog_names ++ log_names) <-> In n taken_by_flog \/ In n taken_by_log.
  Proof. intros n; cbn; tauto. Qed.
  Lemma allowed_ok : forall n, possible n = true <-> allowed n.
  Proof.
    intros n; unfold possible_level_name, allowed; destruct (isident n); cbn [negb]; [|split; [discriminate|intros [H _]; discriminate]].
    assert (U : starts_with_underscore n = true <-> exists r, n = String "_" r).
    { destruct n as [|a r]; cbn; [split; [discriminate|intros [r H]; discriminate]|].
      split; [|intros [q H]; injection H as -> _; reflexivity].
      destruct a as [[] [] [] [] [] [] [] []]; intros H; try discriminate; eexists; reflexivity. }
    destruct (starts_with_underscore n); [split; [discriminate|intros [_ [H _]]]|].
    { destruct (proj1 U eq_refl) as [r ->]; destruct (H r eq_refl). }
    pose proof (existsb_In n (flog_names ++ log_names)) as X; rewrite taken_same in X; destruct (existsb _ _).
    - split; [discriminate|intros [_ [_ [A B]]]]; destruct (proj1 X eq_refl); contradiction.
    - split; [intros _|reflexivity]; split; [reflexivity|split; [intros r ->; pose proof (proj2 U (ex_intro _ r eq_refl)) as Q; discriminate Q|]].
      split; intros H; [specialize (proj2 X (or_introl H))|specialize (proj2 X (or_intror H))]; discriminate.
  Qed.

  (** C70: a level of a legal number is registered exactly if its name is allowed; the name of a refused one is reported as NameError and
      nothing is stored. *)
  Theorem C70_registered : forall ops n z, (0 <= z)%Z ->
    (allowed n -> exists c, clev (conf ops) [(n, VInt z)] = (c, Ok tt) /\ levels_get (lvls c) (VStr n) = Ok (VInt z)) /\
    (~ allowed n -> clev (conf ops) [(n, VInt z)] = (conf ops, Err ENameError)).
  Proof.
    intros ops n z Z; cbn [config_levels is_int ge0 negb]; replace (0 <=? z)%Z with true by (symmetry; apply Z.leb_le; exact Z); cbn [negb].
    pose proof (allowed_ok n) as A; destruct (possible n); cbn [negb]; split; intros H.
    - eexists; split; [reflexivity|]; cbn; rewrite (dget_dset String.eqb String.eqb_spec), String.eqb_refl; reflexivity.
    - exfalso; apply H, A; reflexivity.
    - apply A in H; discriminate.
    - reflexivity.
  Qed.

  Lemma in_registered : forall h L n, In n (dkeys (lv (fold_left put h L))) -> In n (map fst h) \/ In n (dkeys (lv L)).
  Proof.
    induction h as [|[m v] h IH]; intros L n H; cbn [fold_left] in H; [right; exact H|]; cbn [map fst].
    destruct (IH _ _ H) as [Q|Q]; [left; right; exact Q|]; unfold put, levels_set in Q; cbn [fst snd] in Q; destruct (is_int v); cbn [fst lv] in Q; [|right; exact Q].
    rewrite (dkeys_dset String.eqb String.eqb_spec) in Q; destruct (dmem String.eqb (lv L) m); [right; exact Q|].
    apply in_app_iff in Q; destruct Q as [Q|[Q|[]]]; [right; exact Q|left; left; exact Q].
  Qed.
  Definition standard_names : list string :=
    ["NOTSET"; "notset"; "DEBUG"; "debug"; "INFO"; "info"; "WARNING"; "warning"; "ERROR"; "error"; "CRITICAL"; "critical"].
  Lemma hist_names : forall ops n, In n (map fst (hist ops)) -> allowed n \/ In n standard_names.
  Proof.
    induction ops as [|o ops IH]; intros n H; [destruct H|]; cbn [history flat_map] in H; rewrite map_app, in_app_iff in H; destruct H as [H|H]; [|apply IH; exact H].
    destruct o as [kw|kw|]; cbn [registrations] in H; [destruct H| |right; exact H].
    left; clear IH; induction kw as [|[m v] kw IH]; [destruct H|]; cbn [valid_prefix] in H; destruct (valid_reg possible (m, v)) eqn:V; [|destruct H].
    destruct H as [<-|H]; [|apply IH; exact H]; cbn [fst]; unfold valid_reg in V; apply Bool.andb_true_iff in V; apply allowed_ok; apply V.
  Qed.
  Lemma named : forall ops n, In n (names ops) -> allowed n \/ In n standard_names.
  Proof.
    intros ops n H; unfold get_all_names in H; rewrite configured_lvls in H; destruct (in_registered _ _ _ H) as [Q|[]]; exact (hist_names ops n Q).
  Qed.
  Lemma named_no_underscore : forall ops n r, In n (names ops) -> n <> String "_" r.
  Proof.
    intros ops n r H; destruct (named ops n H) as [[_ [A _]]|S]; [apply A|]; cbn in S; intros E; subst n; repeat (destruct S as [S|S]; [discriminate S|]); exact S.
  Qed.
  (** The names that the manual loggers keep for themselves: tables, parts, methods. *)
  Definition own_names : list string :=
    ["_allowed_types"; "_convert_keys"; "_convert_values"; "_default_values"; "_forbidden_fields"; "_position_args"] ++
    ["_all_fields_allowed"; "_engine"; "_engine_fields"; "_in_place_fields"; "_settings"] ++
    ["__call__"; "__getattribute__"; "__init__"; "_clean_context"; "_copy_context"; "_defaults_to_dict"; "_extract_exception"; "_extract_function_data"; "_get_context";
     "_kwargs_to_dict"; "_maybe_raise"; "_position_args_to_dict"; "_prepare_data"; "_push"; "_specific_processing"].
  Lemma own_same : forall n, In n manual_own <-> In n own_names.
  Proof. intros n; cbn; tauto. Qed.
  Lemma own_underscore : forall n, In n manual_own -> exists r, n = String "_" r.
  Proof. intros n H; cbn in H; repeat (destruct H as [<-|H]; [eexists; reflexivity|]); destruct H. Qed.

  (** C70: whatever a program configures: every registered level is reached as log.<name>, as handle_log.<name> and as message.<name>, and has a number. *)
  Theorem C70_reachable : forall ops n, In n (names ops) ->
    Call_Model.router_attr n = Some n /\ manual_attr (names ops) n = Ok (AtLevel n) /\ exists v, levels_get (lvls (conf ops)) (VStr n) = Ok v.
  Proof.
    intros ops n H; split; [|split].
    - apply Block_Props.C33_any_name_is_accepted; intros Q.
      assert (N : ~ In n taken_by_log).
      { destruct (named ops n H) as [[_ [_ [_ A]]]|S]; [exact A|]; intros [<-|[<-|[]]]; cbn in S; repeat (destruct S as [S|S]; [discriminate S|]); exact S. }
      pose proof (fun r => named_no_underscore ops n r H) as U.
      cbn in Q; repeat (destruct Q as [<-|Q]; [first [eapply U; reflexivity|apply N; cbn; tauto]|]); exact Q.
    - unfold manual_attr; rewrite (proj2 (existsb_In n _) H); reflexivity.
    - cbn [levels_get]; destruct (dget String.eqb (lv (lvls (conf ops))) n) as [v|] eqn:E; [eexists; reflexivity|].
      apply (dget_None String.eqb String.eqb_spec) in E; contradiction.
  Qed.
  (** C70: and no level hides an attribute or method of the loggers; any other attribute does not exist. *)
  Theorem C70_hides_nothing : forall ops n,
    (In n own_names -> manual_attr (names ops) n = Ok (Own n)) /\
    (In n taken_by_log -> Call_Model.router_attr n = None /\ ~ In n (names ops)) /\
    (~ In n own_names -> ~ In n (names ops) -> manual_attr (names ops) n = Err EAttributeError).
  Proof.
    intros ops n; rewrite <- own_same; split; [|split].
    - intros O; unfold manual_attr; destruct (existsb (String.eqb n) (names ops)) eqn:E.
      + apply existsb_In in E; destruct (own_underscore n O) as [r ->]; destruct (named_no_underscore ops _ r E eq_refl).
      + rewrite (proj2 (existsb_In n _) O); reflexivity.
    - intros L; split; [destruct L as [<-|[<-|[]]]; reflexivity|]; intros H; pose proof (proj1 (C70_reachable ops n H)) as R.
      destruct L as [<-|[<-|[]]]; discriminate R.
    - intros A B; unfold manual_attr; destruct (existsb (String.eqb n) (names ops)) eqn:E; [apply existsb_In in E; contradiction|].
      destruct (existsb (String.eqb n) manual_own) eqn:F; [apply existsb_In in F; contradiction|reflexivity].
  Qed.

  Ltac refuse := split; [reflexivity|split; [constructor|split; [reflexivity|split; [split; discriminate|intros m w r E; injection E as <- <- <-; split]]]].
  (** C70: a call of config.levels registers its names in order, up to the first one that is not acceptable. *)
  Theorem C70_several : forall ops kw, exists good bad,
    kw = good ++ bad /\
    Forall (fun x => (exists z, snd x = VInt z /\ (0 <= z)%Z \/ exists b, snd x = VBool b) /\ allowed (fst x)) good /\
    lvls (fst (clev (conf ops) kw)) = fold_left put good (lvls (conf ops)) /\
    (snd (clev (conf ops) kw) = Ok tt <-> bad = []) /\
    (forall n v r, bad = (n, v) :: r -> snd (clev (conf ops) kw) =
       Err (if is_int v then if ge0 v then ENameError else EValueError else ETypeError) /\
       (is_int v = true -> ge0 v = true -> ~ allowed n)).
  Proof.
    intros ops kw; generalize (conf ops) as c; induction kw as [|[n v] kw IH]; intros c.
    - exists [], []; split; [reflexivity|split; [constructor|split; [reflexivity|split; [split; reflexivity|intros n v r E; discriminate]]]].
    - cbn [config_levels].
      destruct (is_int v) eqn:I; cbn [negb]; [|exists [], ((n, v) :: kw); refuse; [rewrite I; reflexivity|intros Q; congruence]].
      destruct (ge0 v) eqn:G; cbn [negb]; [|exists [], ((n, v) :: kw); refuse; [rewrite I, G; reflexivity|intros _ Q; congruence]].
      destruct (possible n) eqn:P; cbn [negb]; [|exists [], ((n, v) :: kw); refuse; [rewrite I, G; reflexivity|intros _ _ A; apply allowed_ok in A; congruence]].
      pose proof I as I'; unfold levels_set; rewrite I.
      destruct (IH (mkCfg (vals c) (changed c) (mkLevels (dset String.eqb (lv (lvls c)) n v) (dset Z.eqb (lv_rev (lvls c)) (num v) n)))) as (good & bad & -> & F & L & S1 & S2).
      exists ((n, v) :: good), bad; split; [reflexivity|split; [|split; [|split; [exact S1|exact S2]]]].
      + constructor; [|exact F]; cbn [fst snd]; split; [|apply allowed_ok; exact P].
        destruct v as [|b|z| | | |]; try discriminate I.
        * exists 0%Z; right; exists b; reflexivity.
        * exists z; left; split; [reflexivity|]; apply Z.leb_le; exact G.
      + rewrite L; cbn [fold_left]; unfold put at 3, levels_set; cbn [fst snd]; rewrite I; reflexivity.
  Qed.
End C70.

Definition an_ident (s : string) : bool := negb (String.eqb s "a b").
Notation conf' := (configured an_ident lt5 lt5 yes yes yes yes true (possible_level_name an_ident)).

(** C70: a refused call of config.levels may have registered levels. *)
Theorem C70_all_or_nothing_refuted : ~ (forall c kw e, snd (config_levels (possible_level_name an_ident) c kw) = Err e -> fst (config_levels (possible_level_name an_ident) c kw) = c).
Proof. intros H; specialize (H (conf' []) [("good", VInt 3); ("_bad", VInt 4)] ENameError eq_refl); discriminate. Qed.

(** Some of the keywords of Python, after which a dot cannot be followed by them; str.isidentifier is true of them. *)
Definition keywords : list string := ["if"; "class"; "pass"; "None"; "True"; "with"; "assert"].
(** C70: keywords are accepted as names of levels though log.<keyword> cannot be written. *)
Theorem C70_writable_refuted : ~ (forall isident, (forall k, In k keywords -> isident k = true) -> forall n, possible_level_name isident n = true -> ~ In n keywords).
Proof. intros H; refine (H an_ident _ "pass" eq_refl _); cbn; [intros k K; repeat destruct K as [<-|K]; try reflexivity; destruct K|tauto]. Qed.

(** Names of the automatic logger, of the router, with an underscore, and an ordinary one. *)
Example ex_names : map (possible_level_name an_ident) ["engine"; "suppress"; "_push"; "a b"; "kek"; "level"] = [false; false; false; false; true; true].
Proof. reflexivity. Qed.
Example ex_reach : let ops := [CStandard; CLevels [("kek", VInt 7); ("message", VInt 8); ("lol", VInt 9)]] in
  In "kek" (get_all_names (lvls (conf' ops))) /\ ~ In "lol" (get_all_names (lvls (conf' ops))) /\ manual_attr (get_all_names (lvls (conf' ops))) "_push" = Ok (Own "_push").
Proof. vm_compute; split; [tauto|split; [intros H; repeat destruct H as [H|H]; try discriminate; exact H|reflexivity]]. Qed.

Print Assumptions C70_registered. Print Assumptions C70_reachable. Print Assumptions C70_hides_nothing. Print Assumptions C70_several.
Print Assumptions C70_all_or_nothing_refuted. Print Assumptions C70_writable_refuted.
