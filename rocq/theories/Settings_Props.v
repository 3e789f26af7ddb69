(** Properties C06-C10: settings and level names. *)
From Verif Require Import Base Settings_Model Numeral Settings_Spec Settings_Proofs.

Section Props.
  Variable isident : string -> bool.
  Variable class_or_callable : nat -> bool.
  Variable is_module : nat -> bool.
  Variable has_loads has_dumps loads_callable dumps_callable : nat -> bool.
  Variable debug : bool.
  Variable possible_level_name : string -> bool.

  Open Scope string_scope.
  Open Scope list_scope.

  Notation jl := (json_like is_module has_loads has_dumps loads_callable dumps_callable).
  Notation c0 := (cfg0 isident class_or_callable is_module has_loads has_dumps loads_callable dumps_callable debug).
  Notation cset := (config_set isident class_or_callable is_module has_loads has_dumps loads_callable dumps_callable debug).
  Notation step := (cfg_step isident class_or_callable is_module has_loads has_dumps loads_callable dumps_callable debug possible_level_name).
  Notation clev := (config_levels possible_level_name).
  (** The default json module is the json module of the standard library. *)
  Hypothesis json_default : jl json_obj = true.

  (** The configuration after a program's configuration calls, in order. *)
  Definition configured (ops : list cop) : cfg := fold_left step ops c0.

  (** What the documentation says about setting [n] to [v], knowing the current readable values. *)
  Notation verdict c := (spec_set isident class_or_callable jl (fun n => match cfg_get c n with Ok v => v | Err _ => VNone end)
                           (fun s => match levels_get (lvls c) (VStr s) with Ok v => Some v | Err _ => None end)).

  Lemma CIc : forall ops, CI isident class_or_callable is_module has_loads has_dumps loads_callable dumps_callable debug (configured ops).
  Proof. intros ops; apply CI_reachable; exact json_default. Qed.

  Lemma verdict_eq : forall c n v, verdict c n v = spec_set isident class_or_callable jl (val c) (dget String.eqb (lv (lvls c))) n v.
  Proof.
    intros c n v.
    assert (forall m, (match cfg_get c m with Ok v => v | Err _ => VNone end) = val c m) as E1.
    { intros m; unfold cfg_get, val; destruct (dget String.eqb (vals c) m); reflexivity. }
    assert (forall s, (match levels_get (lvls c) (VStr s) with Ok v => Some v | Err _ => None end) = dget String.eqb (lv (lvls c)) s) as E2.
    { intros s; cbn; destruct (dget String.eqb (lv (lvls c)) s); reflexivity. }
    unfold spec_set, table; rewrite !E1.
    assert (forall v, spec_level (fun s => match levels_get (lvls c) (VStr s) with Ok v => Some v | Err _ => None end) v = spec_level (dget String.eqb (lv (lvls c))) v) as E3.
    { intros u; unfold spec_level; destruct u; try reflexivity; rewrite E2; reflexivity. }
    cbn [dget]; repeat match goal with |- context [String.eqb n ?s] => destruct (String.eqb n s) end; try reflexivity; apply E3.
  Qed.

  (** C06: an assignment is either refused, with the documented exception and no effect whatever, or accepted,
      and then exactly that setting reads as the documented (converted) value. *)
  Theorem C06_accepted_or_unchanged : forall ops n v,
    match verdict (configured ops) n v with
    | Err e => cset (configured ops) [(n, v)] = (configured ops, Err e)
    | Ok w => exists c', cset (configured ops) [(n, v)] = (c', Ok tt) /\
                         (forall m, cfg_get c' m = if String.eqb m n then Ok w else cfg_get (configured ops) m) /\
                         lvls c' = lvls (configured ops)
    end.
  Proof.
    intros ops n v; rewrite verdict_eq; pose proof (set_point_spec _ _ _ _ _ _ _ _ possible_level_name _ n v (CIc ops)) as S.
    cbn [config_set]; rewrite S.
    destruct (spec_set isident class_or_callable jl (val (configured ops)) (dget String.eqb (lv (lvls (configured ops)))) n v) as [w|e]; [|reflexivity].
    eexists; split; [reflexivity|]; split; [|reflexivity].
    intros m; unfold cfg_get; cbn [vals]; rewrite (dget_dset String.eqb String.eqb_spec); destruct (String.eqb m n); reflexivity.
  Qed.

  (** With several keywords: the ones before the first refused one stay applied, that one and the later ones do nothing. *)
  Theorem C06_keywords : forall ops a n v b c1,
    cset (configured ops) a = (c1, Ok tt) ->
    (exists e, verdict c1 n v = Err e) ->
    fst (cset (configured ops) (a ++ (n, v) :: b)) = c1 /\ exists e, snd (cset (configured ops) (a ++ (n, v) :: b)) = Err e.
  Proof.
    intros ops a n v b c1 E (e & Ee).
    assert (configured (ops ++ [CSet a]) = c1) as E1.
    { unfold configured; rewrite fold_left_app; cbn [fold_left cfg_step]; unfold configured in E; rewrite E; reflexivity. }
    pose proof (C06_accepted_or_unchanged (ops ++ [CSet a]) n v) as H; rewrite E1, Ee in H.
    assert (cset c1 ((n, v) :: b) = (c1, Err e)) as R.
    { cbn [config_set] in H |- *; destruct (set_point _ _ _ _ _ _ _ _ c1 n v) as [c' [u|e']]; [discriminate|exact H]. }
    assert (forall a c, cset c a = (c1, Ok tt) -> cset c (a ++ (n, v) :: b) = (c1, Err e)) as G.
    { clear E; intros a'; induction a' as [|[m u] a' IH]; intros c E; [injection E as ->; exact R|].
      cbn [app config_set] in E |- *; destruct (set_point _ _ _ _ _ _ _ _ c m u) as [c' [[]|e']]; [apply IH; exact E|discriminate]. }
    rewrite (G _ _ E); split; [reflexivity|exists e; reflexivity].
  Qed.

  (** C07. *)
  Theorem C07_cross_consistency : forall ops,
    (forall v, cfg_get (configured ops) "pool_size" = Ok v -> zero v ->
       exists w, cfg_get (configured ops) "max_queue_size" = Ok w /\ zero w) /\
    (cfg_get (configured ops) "integration_with_logging" = Ok (VBool false) -> cfg_get (configured ops) "logging_off" = Ok (VBool false)).
  Proof.
    intros ops; pose proof (CIc ops) as C.
    assert (forall m, In m (names isident class_or_callable is_module has_loads has_dumps loads_callable dumps_callable debug) ->
              cfg_get (configured ops) m = Ok (val (configured ops) m)) as G.
    { intros m Hm; unfold cfg_get; erewrite val_in; [reflexivity|exact C|exact Hm]. }
    split.
    - intros v E Z; rewrite G in E by (apply In_existsb; reflexivity); injection E as <-.
      eexists; split; [apply G; apply In_existsb; reflexivity|apply (ci_pool _ _ _ _ _ _ _ _ _ C); exact Z].
    - rewrite !G by (apply In_existsb; reflexivity); intros E; injection E as E; f_equal; apply (ci_logging _ _ _ _ _ _ _ _ _ C); exact E.
  Qed.

  (** C08: started never goes back, and after it is set no value is accepted for it. *)
  Theorem C08_started_once : forall ops ops' v,
    cfg_get (configured ops) "started" = Ok (VBool true) ->
    cfg_get (configured (ops ++ ops')) "started" = Ok (VBool true) /\
    cset (configured (ops ++ ops')) [("started", v)] = (configured (ops ++ ops'), Err EDoubleSetting).
  Proof.
    intros ops ops' v H.
    assert (forall c, CI isident class_or_callable is_module has_loads has_dumps loads_callable dumps_callable debug c ->
              cfg_get c "started" = Ok (val c "started")) as G.
    { intros c C; unfold cfg_get; erewrite val_in; [reflexivity|exact C|apply In_existsb; reflexivity]. }
    rewrite G in H by apply CIc; injection H as H; apply (ci_started _ _ _ _ _ _ _ _ _ (CIc ops)) in H.
    assert (In "started" (changed (configured (ops ++ ops')))) as H'.
    { unfold configured; rewrite fold_left_app; fold (configured ops); revert H; generalize (configured ops) as c.
      induction ops' as [|o ops' IH]; intros c H; [exact H|]; cbn [fold_left]; apply IH.
      assert (forall c n v, In "started" (changed c) -> In "started" (changed (fst (set_point isident class_or_callable is_module has_loads has_dumps loads_callable dumps_callable debug c n v)))) as P.
      { clear; intros c n v H; unfold set_point; destruct (dget String.eqb _ n) as [p|]; [|exact H].
        destruct (_ && _); [exact H|]; destruct (_ && _); [exact H|]; destruct (negb _); [exact H|].
        destruct (match p_converter p with None => Ok v | Some f => f (lvls c) v end) as [w|]; [|exact H].
        destruct (conflicting c p w); [exact H|]; right; exact H. }
      destruct o as [kw|kw|]; cbn [cfg_step].
      - revert c H; induction kw as [|[n u] kw IHk]; intros c H; [exact H|]; cbn [config_set].
        specialize (P c n u H); destruct (set_point _ _ _ _ _ _ _ _ c n u) as [c' [t|e]]; [apply IHk; exact P|exact P].
      - revert c H; induction kw as [|[n u] kw IHk]; intros c H; [exact H|]; cbn [config_levels].
        destruct (negb (is_int u)); [exact H|]; destruct (negb (ge0 u)); [exact H|]; destruct (negb (possible_level_name n)); [exact H|].
        destruct (levels_set (lvls c) (Some n) u) as [L [t|e]]; [apply IHk|]; exact H.
      - exact H. }
    pose proof H' as H2; apply (ci_started _ _ _ _ _ _ _ _ _ (CIc (ops ++ ops'))) in H'.
    split; [rewrite G by apply CIc; rewrite H'; reflexivity|].
    pose proof (C06_accepted_or_unchanged (ops ++ ops') "started" v) as S; rewrite verdict_eq in S.
    unfold spec_set in S; cbn in S; rewrite H' in S; exact S.
  Qed.

  (** Before it is set, only True is accepted: it can never be set to False. *)
  Theorem C08_never_false : forall ops v,
    (exists c', cset (configured ops) [("started", v)] = (c', Ok tt)) -> v = VBool true.
  Proof.
    intros ops v (c' & E); pose proof (C06_accepted_or_unchanged ops "started" v) as S; rewrite verdict_eq, E in S.
    unfold spec_set in S; cbn [dget table] in S; cbn [String.eqb Ascii.eqb Bool.eqb] in S; destruct (true_b (val (configured ops) "started")); [discriminate|].
    unfold require in S; destruct (true_b v) eqn:Ev; [|discriminate].
    destruct v as [|[]|z|cl id|s|pb|o]; try discriminate; reflexivity.
  Qed.

  Theorem C08_boolean : forall ops, exists b, cfg_get (configured ops) "started" = Ok (VBool b).
  Proof.
    intros ops; pose proof (CIc ops) as C; unfold cfg_get.
    erewrite val_in; [|exact C|apply In_existsb; reflexivity].
    assert (boolean (val (configured ops) "started")) as (b & ->).
    { eapply legal_started; [eapply val_legal; [exact C|]|]; apply In_existsb; reflexivity. }
    exists b; reflexivity.
  Qed.

  (** C09. *)
  Theorem C09_always_legal : forall ops n v, cfg_get (configured ops) n = Ok v -> legal isident jl n v.
  Proof.
    intros ops n v H; apply (ci_legal _ _ _ _ _ _ _ _ _ (CIc ops)); unfold cfg_get in H.
    destruct (dget String.eqb (vals (configured ops)) n); [injection H as ->; reflexivity|discriminate].
  Qed.

  (** Every documented setting is always readable. *)
  Theorem C09_always_present : forall ops n,
    In n (["pool_size"; "max_queue_size"; "started"; "service_name"; "max_delay_before_exit"; "time_quant";
           "delay_on_exit_loop_iteration_in_quants"; "engine"; "json_module"; "smart_assert_politic"] ++ level_settings ++ flags) ->
    exists v, cfg_get (configured ops) n = Ok v.
  Proof.
    intros ops n Hn; unfold cfg_get; erewrite val_in; [eexists; reflexivity|apply CIc|].
    cbv [app level_settings flags In] in Hn; cbv [names map fst points In].
    tauto.
  Qed.

  (** *** Levels.  The registrations a program performs, in order. *)
  Definition valid_reg (x : string * pyval) : bool := nonneg_b (snd x) && possible_level_name (fst x).
  Fixpoint valid_prefix (kw : list (string * pyval)) : list (string * pyval) :=
    match kw with [] => [] | x :: r => if valid_reg x then x :: valid_prefix r else [] end.
  Definition registrations (o : cop) : list (string * pyval) :=
    match o with
    | CSet _ => []
    | CLevels kw => valid_prefix kw
    | CStandard => [("NOTSET", VInt 0); ("notset", VInt 0); ("DEBUG", VInt 10); ("debug", VInt 10);
                    ("INFO", VInt 20); ("info", VInt 20); ("WARNING", VInt 30); ("warning", VInt 30);
                    ("ERROR", VInt 40); ("error", VInt 40); ("CRITICAL", VInt 50); ("critical", VInt 50)]
    end.
  Definition history (ops : list cop) : list (string * pyval) := flat_map registrations ops.

  Definition put (L : levels) (x : string * pyval) : levels := fst (levels_set L (Some (fst x)) (snd x)).
  Lemma set_point_lvls : forall c n v, lvls (fst (set_point isident class_or_callable is_module has_loads has_dumps loads_callable dumps_callable debug c n v)) = lvls c.
  Proof.
    intros c n v; unfold set_point; destruct (dget String.eqb _ n) as [p|]; [|reflexivity].
    destruct (_ && _); [reflexivity|]; destruct (_ && _); [reflexivity|]; destruct (negb _); [reflexivity|].
    destruct (match p_converter p with None => Ok v | Some f => f (lvls c) v end) as [w|]; [|reflexivity].
    destruct (conflicting c p w); reflexivity.
  Qed.
  Lemma step_lvls : forall c o, lvls (step c o) = fold_left put (registrations o) (lvls c).
  Proof.
    intros c [kw|kw|]; cbn [cfg_step registrations].
    - revert c; induction kw as [|[n v] kw IH]; intros c; [reflexivity|]; cbn [config_set].
      pose proof (set_point_lvls c n v) as E; destruct (set_point _ _ _ _ _ _ _ _ c n v) as [c' [t|e]]; cbn [fst] in E |- *; [rewrite IH|]; exact E.
    - revert c; induction kw as [|[n v] kw IH]; intros c; [reflexivity|]; cbn [config_levels valid_prefix].
      unfold valid_reg; cbn [fst snd].
      destruct v as [|b|z|cl id|s|pb|o]; try reflexivity; cbn [is_int ge0 negb nonneg_b andb].
      + destruct (possible_level_name n); cbn [negb]; [|reflexivity]; cbn [levels_set is_int].
        rewrite IH; reflexivity.
      + destruct (0 <=? z)%Z; cbn [negb andb]; [|reflexivity].
        destruct (possible_level_name n); cbn [negb]; [|reflexivity]; cbn [levels_set is_int].
        rewrite IH; reflexivity.
    - reflexivity.
  Qed.

  Lemma configured_lvls : forall ops, lvls (configured ops) = fold_left put (history ops) no_levels.
  Proof.
    assert (forall ops c, lvls (fold_left step ops c) = fold_left put (history ops) (lvls c)) as G.
    { induction ops as [|o ops IH]; intros c; [reflexivity|]; cbn [fold_left history flat_map].
      rewrite IH, fold_left_app, step_lvls; reflexivity. }
    intros ops; apply G.
  Qed.

  Lemma valid_history : forall ops, Forall (fun x => nonneg_b (snd x) = true) (history ops).
  Proof.
    intros ops; induction ops as [|o ops IH]; [constructor|]; cbn [history flat_map]; apply Forall_app; split; [|exact IH].
    destruct o as [kw|kw|]; cbn [registrations]; [constructor| |].
    - induction kw as [|x kw IHk]; cbn [valid_prefix]; [constructor|]; destruct (valid_reg x) eqn:E; constructor; [|exact IHk].
      unfold valid_reg in E; apply andb_true_iff in E; apply E.
    - repeat (apply Forall_cons; [reflexivity|]); apply Forall_nil.
  Qed.

  Lemma lookups : forall h, Forall (fun x => nonneg_b (snd x) = true) h ->
    (forall n, dget String.eqb (lv (fold_left put h no_levels)) n = last_for_name h n) /\
    (forall z, dget Z.eqb (lv_rev (fold_left put h no_levels)) z = last_for_number h z).
  Proof.
    intros h; induction h as [|x h IH] using rev_ind; intros F; [split; reflexivity|].
    apply Forall_app in F; destruct F as [F Fx]; inversion Fx as [|y l Hx _]; subst; destruct (IH F) as [A B].
    assert (is_int (snd x) = true) as Ei by (destruct (snd x); discriminate || reflexivity).
    unfold last_for_name, last_for_number in *; split; intros k; rewrite !fold_left_app; cbn [fold_left]; unfold put, levels_set; rewrite Ei; cbn [fst lv lv_rev].
    - rewrite (dget_dset String.eqb String.eqb_spec), A, String.eqb_sym; reflexivity.
    - rewrite (dget_dset Z.eqb Z.eqb_spec), B, Z.eqb_sym; reflexivity.
  Qed.

  (** C10: look-up by name gives the number last given to it; numbers stand for themselves; every other key is refused. *)
  Theorem C10_get : forall ops k,
    levels_get (lvls (configured ops)) k =
      match k with
      | VStr s => match last_for_name (history ops) s with Some v => Ok v | None => Err EKeyError end
      | VInt z => if (0 <=? z)%Z then Ok (VInt z) else Err EKeyError
      | _ => Err EKeyError
      end.
  Proof.
    intros ops k; destruct (lookups (history ops) (valid_history ops)) as [A _]; rewrite <- configured_lvls in A.
    destruct k as [|b|z|cl id|s|pb|o]; try reflexivity; cbn [levels_get].
    - destruct (Z.ltb_spec z 0), (Z.leb_spec 0 z); try reflexivity; lia.
    - rewrite A; reflexivity.
  Qed.

  (** The name displayed for a number is the last name given to it, or its decimal form. *)
  Lemma level_name : forall ops z,
    get_level_name (lvls (configured ops)) (VInt z) =
      Some (match last_for_number (history ops) z with Some n => n | None => str_of_Z z end).
  Proof.
    intros ops z; destruct (lookups (history ops) (valid_history ops)) as [_ B]; rewrite <- configured_lvls in B.
    cbn [get_level_name]; rewrite B; reflexivity.
  Qed.
  Theorem C10_level_name : forall ops z, exists s, get_level_name (lvls (configured ops)) (VInt z) = Some s /\
    match last_for_number (history ops) z with Some n => s = n | None => decimal s z end.
  Proof. intros ops z; rewrite level_name; eexists; split; [reflexivity|]. destruct (last_for_number (history ops) z); [reflexivity|apply str_decimal]. Qed.

  Lemma last_name_app : forall h1 h2 n, last_for_name (h1 ++ h2) n = match last_for_name h2 n with Some v => Some v | None => last_for_name h1 n end.
  Proof.
    intros h1 h2 n; induction h2 as [|x h2 IH] using rev_ind; [rewrite app_nil_r; reflexivity|].
    unfold last_for_name in *; rewrite app_assoc, !fold_left_app in *; cbn [fold_left] in *.
    destruct (String.eqb (fst x) n); [reflexivity|exact IH].
  Qed.
  Lemma last_number_app : forall h1 h2 z, last_for_number (h1 ++ h2) z = match last_for_number h2 z with Some v => Some v | None => last_for_number h1 z end.
  Proof.
    intros h1 h2 z; induction h2 as [|x h2 IH] using rev_ind; [rewrite app_nil_r; reflexivity|].
    unfold last_for_number in *; rewrite app_assoc, !fold_left_app in *; cbn [fold_left] in *.
    destruct (Z.eqb (number (snd x)) z); [reflexivity|exact IH].
  Qed.
  Lemma last_name_none : forall h n, last_for_name h n = None <-> ~ In n (map fst h).
  Proof.
    induction h as [|x h IH] using rev_ind; intros n; [cbn; tauto|].
    unfold last_for_name; rewrite fold_left_app, map_app, in_app_iff; cbn [fold_left map In]; fold (last_for_name h n).
    destruct (String.eqb_spec (fst x) n) as [E|E]; [split; [discriminate|tauto]|]; rewrite IH; tauto.
  Qed.
  Lemma last_number_none : forall h z, last_for_number h z = None <-> ~ In z (map (fun x => number (snd x)) h).
  Proof.
    induction h as [|x h IH] using rev_ind; intros z; [cbn; tauto|].
    unfold last_for_number; rewrite fold_left_app, map_app, in_app_iff; cbn [fold_left map In]; fold (last_for_number h z).
    destruct (Z.eqb_spec (number (snd x)) z) as [E|E]; [split; [discriminate|tauto]|]; rewrite IH; tauto.
  Qed.

  (** The displayed name of a number that got a name: look the name up and one gets the number back exactly
      if the name was not registered again afterwards. *)
  Theorem C10_round_trip : forall ops h1 n v h2,
    history ops = h1 ++ (n, v) :: h2 -> ~ In (number v) (map (fun x => number (snd x)) h2) ->
    get_level_name (lvls (configured ops)) (VInt (number v)) = Some n /\
    ((exists w, levels_get (lvls (configured ops)) (VStr n) = Ok w /\ number w = number v) <-> ~ In n (map fst h2)).
  Proof.
    intros ops h1 n v h2 E N; rewrite level_name, C10_get, E.
    change ((n, v) :: h2) with ([(n, v)] ++ h2); rewrite !last_number_app, !last_name_app.
    rewrite (proj2 (last_number_none h2 (number v)) N).
    assert (last_for_number [(n, v)] (number v) = Some n) as -> by (cbn; rewrite Z.eqb_refl; reflexivity).
    split; [reflexivity|]; destruct (last_for_name h2 n) as [w|] eqn:Ew.
    - split.
      + intros (w' & Eq & Ez); injection Eq as <-; exfalso; apply N; rewrite <- Ez.
        assert (forall h n w, last_for_name h n = Some w -> In w (map snd h)) as P.
        { clear; intros h n; induction h as [|x h IH] using rev_ind; intros w; [discriminate|].
          unfold last_for_name; rewrite fold_left_app, map_app, in_app_iff; cbn [fold_left map In]; fold (last_for_name h n).
          destruct (String.eqb (fst x) n); [intros E; injection E as ->; auto|]; intros E; left; apply IH; exact E. }
        apply P in Ew; rewrite <- map_map; apply in_map; exact Ew.
      + intros H; exfalso; apply last_name_none in H; congruence.
    - assert (last_for_name [(n, v)] n = Some v) as -> by (cbn; rewrite String.eqb_refl; reflexivity).
      apply last_name_none in Ew; split; [intros _; exact Ew|]; intros _; exists v; auto.
  Qed.

  (** A number no name was given to is displayed in decimal, and that text is a key only if it was itself registered. *)
  Theorem C10_unnamed : forall ops z, ~ In z (map (fun x => number (snd x)) (history ops)) ->
    exists s, decimal s z /\ get_level_name (lvls (configured ops)) (VInt z) = Some s /\
    (~ In s (map fst (history ops)) -> levels_get (lvls (configured ops)) (VStr s) = Err EKeyError).
  Proof.
    intros ops z N; exists (str_of_Z z); split; [apply str_decimal|]; rewrite level_name, C10_get, (proj2 (last_number_none _ _) N); split; [reflexivity|].
    intros H; rewrite (proj2 (last_name_none _ _) H); reflexivity.
  Qed.
End Props.

(** *** Concrete cases *)
Local Open Scope string_scope.
Local Open Scope list_scope.
Definition id1 (s : string) : bool := negb (String.eqb s "a b").
Definition yes (n : nat) : bool := true.
Definition lt5 (n : nat) : bool := Nat.ltb n 5.
Notation conf := (configured id1 lt5 lt5 yes yes yes yes true id1).
Notation cs := (config_set id1 lt5 lt5 yes yes yes yes true).
Definition prog : list cop :=
  [CStandard; CSet [("pool_size", VInt 2); ("max_queue_size", VInt 7); ("level", VStr "error"); ("pool_size", VInt 0); ("started", VBool true)];
   CSet [("started", VBool true); ("level", VInt 3)]; CLevels [("boo", VInt 10); ("a b", VInt 1)]; CLevels [("boo", VInt 11); ("t", VBool true)]].

Example C06_case :
  cfg_get (conf prog) "pool_size" = Ok (VInt 2) /\ cfg_get (conf prog) "level" = Ok (VInt 3) /\
  snd (cs (conf prog) [("pool_size", VInt 0)]) = Err EValueError /\
  snd (cs (conf prog) [("max_queue_size", VInt 0); ("pool_size", VInt 0)]) = Ok tt /\
  snd (cs (conf prog) [("service_name", VStr "a b")]) = Err EValueError /\
  snd (cs (conf prog) [("json_module", VObj 9)]) = Err EValueError /\
  snd (cs (conf prog) [("level", VStr "nope")]) = Err EKeyError /\
  snd (cs (conf prog) [("time_quant", VFloat FNan 4)]) = Err EValueError /\
  snd (cs (conf prog) [("qwerty", VInt 1)]) = Err EKeyError.
Proof. vm_compute; repeat split. Qed.

Example C07_case :
  snd (cs (conf []) [("integration_with_logging", VBool false)]) = Err EValueError /\
  snd (cs (conf []) [("logging_off", VBool false); ("integration_with_logging", VBool false)]) = Ok tt /\
  snd (cs (conf []) [("max_queue_size", VInt 1)]) = Err EValueError.
Proof. vm_compute; repeat split. Qed.

Example C08_case :
  cfg_get (conf prog) "started" = Ok (VBool true) /\
  cfg_get (conf []) "started" = Ok (VBool false) /\
  snd (cs (conf prog) [("started", VBool true)]) = Err EDoubleSetting /\
  snd (cs (conf []) [("started", VBool false)]) = Err EValueError.
Proof. vm_compute; repeat split. Qed.

Example C09_case : cfg_get (conf (prog ++ [CSet [("default_level", VStr "t")]])) "default_level" = Ok (VBool true).
Proof. reflexivity. Qed.

Example C10_case :
  levels_get (lvls (conf prog)) (VStr "boo") = Ok (VInt 11) /\
  get_level_name (lvls (conf prog)) (VInt 40) = Some "error" /\
  get_level_name (lvls (conf prog)) (VInt 17) = Some "17" /\
  levels_get (lvls (conf prog)) (VStr "a b") = Err EKeyError /\
  levels_get (lvls (conf prog)) (VBool true) = Err EKeyError.
Proof. vm_compute; repeat split. Qed.

(** The reverse look-up is not always inverse: 10 is displayed as "boo", but "boo" now means 11. *)
Theorem C10_stale_name_refuted : exists ops z n,
  get_level_name (lvls (conf ops)) (VInt z) = Some n /\ levels_get (lvls (conf ops)) (VStr n) = Ok (VInt 11) /\ z <> 11%Z.
Proof. exists prog, 10%Z, "boo"; vm_compute; repeat split; discriminate. Qed.

Print Assumptions C06_accepted_or_unchanged.
Print Assumptions C06_keywords.
Print Assumptions C07_cross_consistency.
Print Assumptions C08_started_once.
Print Assumptions C08_never_false.
Print Assumptions C08_boolean.
Print Assumptions C09_always_legal.
Print Assumptions C09_always_present.
Print Assumptions C10_get.
Print Assumptions C10_level_name.
Print Assumptions C10_round_trip.
Print Assumptions C10_unnamed.
Print Assumptions C10_stale_name_refuted.
