(** C01-C05: theorems about the handler tree.  Every state is reached from the empty tree by an
    arbitrary history; [kc] and [vc] (the key and value checkers) are arbitrary. *)
From Verif Require Import Base Tree_Model Tree_Spec Tree_Heap Tree_Ops Tree_Project Tree_Proofs.

Section Props.
  Context {V : Type}.
  Variable kc : string -> bool.
  Variable vc : V -> bool.
  Notation hist := (final (tree_step kc vc) (tree_empty (V := V))).
  Notation mhist := (final (map_step kc vc) (map_empty (V := V))).

  (** Which texts are keys, and of which path. *)
  Theorem C01_keys : forall k p, parse kc k = Some p <-> denotes kc k p.
  Proof. exact (parse_denotes kc). Qed.

  (** Every answer of the tree over every history is the answer of the map. *)
  Theorem C01_tree_is_map : forall ops : list (top V),
    outputs (tree_step kc vc) tree_empty ops = outputs (map_step kc vc) map_empty ops.
  Proof. intros ops; apply (history_refines kc vc). Qed.

  Lemma map_step_err : forall (m : amap V) o e, snd (map_step kc vc m o) = RErr e -> fst (map_step kc vc m o) = m.
  Proof.
    intros m o e Eo; destruct o as [k v|k|k|k| |ks]; cbn [map_step] in *.
    - destruct k as [s|]; [|reflexivity]; destruct v as [v|]; [|reflexivity].
      destruct (vc v); [|reflexivity]; destruct (parse kc (KStr s)); [discriminate|reflexivity].
    - destruct (parse kc k) as [p|]; [|reflexivity]; destruct (dget path_eqb m p); [discriminate|reflexivity].
    - destruct (parse kc k); reflexivity.
    - destruct (parse kc k) as [p|]; [|reflexivity]; destruct (dget path_eqb m p); reflexivity.
    - reflexivity.
    - reflexivity.
  Qed.

  (** A rejected operation changes no later answer. *)
  Theorem C01_rejected_changes_nothing : forall (ops : list (top V)) o e ops',
    snd (tree_step kc vc (hist ops) o) = RErr e ->
    outputs (tree_step kc vc) (fst (tree_step kc vc (hist ops) o)) ops' = outputs (tree_step kc vc) (hist ops) ops'.
  Proof.
    intros ops o e ops' E.
    destruct (history_refines kc vc ops) as [_ R].
    destruct (step_refines kc vc _ _ o R) as [R' Eo].
    rewrite (proj1 (outputs_sim (tree_step kc vc) (map_step kc vc) Rel (fun a b o H => step_refines kc vc a b o H) ops' _ _ R')).
    rewrite (proj1 (outputs_sim (tree_step kc vc) (map_step kc vc) Rel (fun a b o H => step_refines kc vc a b o H) ops' _ _ R)).
    rewrite E in Eo; f_equal; apply (map_step_err _ _ e); congruence.
  Qed.

  (** Iteration: a list [l] of (path, value) holding every stored value once, shallower paths first. *)
  Theorem C02_iteration : forall ops : list (top V), exists l : list (path * V),
    tree_iter (hist ops) 0 = Ok (map snd l) /\
    tree_len (hist ops) 0 = Ok (length l) /\
    NoDup (map fst l) /\
    (forall p v, In (p, v) l <-> dget path_eqb (mhist ops) p = Some v) /\
    (forall i j p q, i <= j -> nth_error (map fst l) i = Some p -> nth_error (map fst l) j = Some q ->
       length p <= length q).
  Proof.
    intros ops; destruct (history_refines kc vc ops) as [_ R].
    destruct (iter_spec vc _ _ R) as (l & E1 & E2 & Hnd & Hin & Hord).
    exists l; split; [exact E1|]; split; [|auto].
    unfold tree_iter in E1; unfold tree_len; destruct (bfs_values (hist ops) 0); [|discriminate].
    injection E1 as ->; rewrite map_length; reflexivity.
  Qed.

  Theorem C03_membership : forall (ops : list (top V)) k p,
    forallb no_projection ops = true -> parse kc k = Some p -> p <> [] ->
    (tree_contains kc (hist ops) 0 k = Ok true <-> leads_to_value (mhist ops) p) /\
    (tree_contains kc (hist ops) 0 k = Ok false <-> ~ leads_to_value (mhist ops) p).
  Proof.
    intros ops k p Hn Hk Hp; apply (contains_tidy kc); [apply history_refines| |exact Hk|exact Hp].
    apply (tidy_final kc vc ops tree_empty map_empty); [apply Rel_empty|apply tidy_empty|exact Hn].
  Qed.

  Theorem C03_membership_dot : forall (ops : list (top V)), tree_contains kc (hist ops) 0 (KStr ".") = Ok true.
  Proof. intros ops; reflexivity. Qed.

  (** With projections in the history one direction is left: nothing stored is missed. *)
  Theorem C03_membership_after_projections : forall (ops : list (top V)) k p,
    parse kc k = Some p -> leads_to_value (mhist ops) p -> tree_contains kc (hist ops) 0 k = Ok true.
  Proof. intros ops k p Hk Hp; apply (contains_value kc _ (mhist ops) k p); auto; apply history_refines. Qed.

  (** [ops1]; local = projection on [ks]; [ops2] on the source.  A key at or below a projected path reads the
      same through the local tree and the source, if no deletion of [ops2] left that path empty. *)
  Theorem C04_projection_follows : forall (ops1 ops2 : list (top V)) ks ps h1 r,
    project kc (hist ops1) 0 ks = (h1, Ok r) ->
    Forall2 (fun k p => parse kc k = Some p) ks ps ->
    forall k p s, In p ps -> parse kc k = Some (p ++ s) ->
      kept kc vc (mhist ops1) p ops2 ->
      let h2 := final (tree_step kc vc) h1 ops2 in
      tree_get kc h2 r k = tree_get kc h2 0 k.
  Proof.
    intros ops1 ops2 ks ps h1 r Ep Fps k p s Hp Hk K h2.
    destruct (history_refines kc vc ops1) as [_ (b & loc & I & Hnd & Hl)].
    destruct (project_ok kc ks b loc _ I) as (loc' & h' & res & E & I' & A & L & Lk & Mono & F & Rest).
    rewrite Ep in E; injection E as <- <-.
    destruct (spec_project (V := V) kc ks); try contradiction; [|discriminate].
    destruct Rest as (r' & Er & (Br & LR) & Gok & ps' & Fps' & Ips & _).
    injection Er as <-.
    assert (ps' = ps) as ->.
    { clear - Fps Fps'; revert ps Fps; induction Fps' as [|k p ks ps' H _ IH]; intros ps F; inversion F; subst; [reflexivity|].
      f_equal; [congruence|apply IH; assumption]. }
    rewrite !tree_get_spec, Hk; f_equal.
    destruct (local_view kc vc ops2 b loc' h1 (mhist ops1) r ps I' Hnd) as [_ H2]; [intros q; rewrite Lk; apply Hl|exact LR|exact Ips|].
    apply (H2 p (p ++ s) Hp); [exists s; reflexivity| |exact K].
    intros g n G; left; apply Gok; exact G.
  Qed.

  (** Keys outside the projection stay invisible, whatever happens to the source. *)
  Theorem C04_projection_hides_the_rest : forall (ops1 ops2 : list (top V)) ks ps h1 r,
    project kc (hist ops1) 0 ks = (h1, Ok r) ->
    Forall2 (fun k p => parse kc k = Some p) ks ps ->
    forall k q, parse kc k = Some q -> (forall p s, In p ps -> q <> p ++ s) ->
      tree_get kc (final (tree_step kc vc) h1 ops2) r k = Ok None.
  Proof.
    intros ops1 ops2 ks ps h1 r Ep Fps k q Hk Hout.
    destruct (history_refines kc vc ops1) as [_ (b0 & loc & I & Hnd & Hl)].
    apply Inv_now in I; set (b := length (hist ops1)) in I.
    destruct (project_ok kc ks b loc _ I) as (loc' & h' & res & E & I' & A & L & Lk & Mono & F & Rest).
    rewrite Ep in E; injection E as <- <-.
    destruct (spec_project (V := V) kc ks); try contradiction; [|discriminate].
    destruct Rest as (r' & Er & (Br & LR) & Gok & ps' & Fps' & Ips & _).
    injection Er as <-.
    assert (ps' = ps) as ->.
    { clear - Fps Fps'; revert ps Fps; induction Fps' as [|k p ks ps' H _ IH]; intros ps F; inversion F; subst; [reflexivity|].
      f_equal; [congruence|apply IH; assumption]. }
    rewrite tree_get_spec, Hk; f_equal.
    destruct (local_view kc vc ops2 b loc' h1 (mhist ops1) r ps I' Hnd) as [H1 _]; [intros q0; rewrite Lk; apply Hl|exact LR|exact Ips|].
    assert (Hq : forall p, In p ps -> ~ prefix p q) by (intros p Hp (s & Es); apply (Hout p s Hp Es)).
    rewrite H1 by exact Hq; apply (local_none b loc' h1 r ps); assumption.
  Qed.

  (** A projection succeeds on exactly the lists of valid names other than ".". *)
  Theorem C04_projection_total : forall (ops : list (top V)) ks,
    (exists h1 r, project kc (hist ops) 0 ks = (h1, Ok r)) <->
    exists ps, Forall2 (fun k p => parse kc k = Some p) ks ps /\ Forall (fun p => p <> []) ps.
  Proof.
    intros ops ks.
    destruct (history_refines kc vc ops) as [_ (b & loc & I & Hnd & Hl)].
    destruct (project_ok kc ks b loc _ I) as (loc' & h' & res & E & _ & _ & _ & _ & _ & _ & Rest).
    assert (spec_project (V := V) kc ks = RUnit <->
            exists ps, Forall2 (fun k p => parse kc k = Some p) ks ps /\ Forall (fun p => p <> []) ps) as <-.
    { clear; induction ks as [|k ks IH]; cbn [spec_project].
      - split; [intros _; exists []; split; constructor|reflexivity].
      - change ((fix go (l : list pykey) : tout V :=
             match l with
             | [] => RUnit
             | k0 :: r0 => match parse kc k0 with
                           | Some [] => RErr EValueError
                           | Some (_ :: _) => go r0
                           | None => RErr EKeyError
                           end
             end) ks) with (spec_project (V := V) kc ks).
        destruct (parse kc k) as [[|x p]|] eqn:Ep.
        + split; [discriminate|]. intros (ps & F & N); inversion F; subst; inversion N; subst; congruence.
        + rewrite IH; split; intros (ps & F & N).
          * exists ((x :: p) :: ps); split; constructor; auto; discriminate.
          * inversion F; subst; inversion N; subst; eauto.
        + split; [discriminate|]. intros (ps & F & N); inversion F; subst; congruence. }
    rewrite E; destruct (spec_project (V := V) kc ks); try contradiction.
    - destruct Rest as (r & -> & _); split; [reflexivity|]; intros _; exists h', r; reflexivity.
    - subst res; split; [intros (h1 & r & Eq); discriminate|discriminate].
  Qed.

  (** Asking for [ks]: nothing stored changes, whatever the outcome. *)
  Theorem C05_projection_keeps_values : forall (ops : list (top V)) ks ops',
    outputs (tree_step kc vc) (fst (project kc (hist ops) 0 ks)) ops' = outputs (tree_step kc vc) (hist ops) ops'.
  Proof.
    intros ops ks ops'.
    destruct (history_refines kc vc ops) as [_ R].
    destruct (step_refines kc vc _ _ (OProject ks) R) as [R' _].
    cbn [map_step fst tree_step] in R'.
    assert (fst (let (h', r) := project kc (hist ops) 0 ks in match r with Ok _ => (h', RUnit (V := V)) | Err e => (h', RErr e) end)
            = fst (project kc (hist ops) 0 ks)) as E.
    { destruct (project kc (hist ops) 0 ks) as [h' [r|e]]; reflexivity. }
    rewrite E in R'.
    rewrite (proj1 (outputs_sim (tree_step kc vc) (map_step kc vc) Rel (fun a b o H => step_refines kc vc a b o H) ops' _ _ R')).
    rewrite (proj1 (outputs_sim (tree_step kc vc) (map_step kc vc) Rel (fun a b o H => step_refines kc vc a b o H) ops' _ _ R)).
    reflexivity.
  Qed.

  (** ... and exactly the asked paths and their prefixes become present. *)
  Theorem C05_projection_presence : forall (ops : list (top V)) ks ps h1 r,
    project kc (hist ops) 0 ks = (h1, Ok r) ->
    Forall2 (fun k p => parse kc k = Some p) ks ps ->
    forall k q, parse kc k = Some q ->
      (tree_contains kc h1 0 k = Ok true <->
       tree_contains kc (hist ops) 0 k = Ok true \/ exists p s, In p ps /\ p = q ++ s).
  Proof.
    intros ops ks ps h1 r Ep Fps k q Hk.
    destruct (history_refines kc vc ops) as [_ (b & loc & I & Hnd & Hl)].
    destruct (project_ok kc ks b loc _ I) as (loc' & h' & res & E & I' & A & L & Lk & Mono & F & Rest).
    rewrite Ep in E; injection E as <- <-.
    destruct (spec_project (V := V) kc ks); try contradiction; [|discriminate].
    destruct Rest as (r' & Er & (Br & LR) & Gok & ps' & Fps' & Ips & Wps & Pps).
    assert (ps' = ps) as ->.
    { clear - Fps Fps'; revert ps Fps; induction Fps' as [|k p ks ps' H _ IH]; intros ps F; inversion F; subst; [reflexivity|].
      f_equal; [congruence|apply IH; assumption]. }
    rewrite !tree_contains_spec, Hk; split.
    - destruct (walk h1 0 q) as [m|] eqn:Em; [|discriminate]; intros _.
      destruct (Wps q m Em) as [H|(p & Hp & s & Es)]; [left; rewrite H; reflexivity|right; exists p, s; auto].
    - intros [H|(p & s & Hp & Es)].
      + destruct (walk (hist ops) 0 q) as [m|] eqn:Em; [|discriminate]; rewrite (Mono q m Em); reflexivity.
      + destruct (Pps p q Hp) as [m ->]; [exists s; exact Es|reflexivity].
  Qed.
End Props.

(** *** Concrete cases *)
Local Open Scope string_scope.
Local Open Scope list_scope.
Definition any_key (s : string) : bool := negb (String.eqb s "").
Definition any_val (v : nat) : bool := true.
Definition st (ops : list (top nat)) := final (tree_step any_key any_val) tree_empty ops.

Definition demo_ops : list (top nat) :=
  [OSet (KStr "a.b.c") (Some 1); OSet (KStr "a") (Some 2); OSet (KStr "a.d") (Some 3); OSet (KStr ".") (Some 4);
   ODel (KStr "a.b.c"); OGet (KStr "a.b.c"); OItem (KStr "a"); OLen; OSet (KStr "a..b") (Some 5); ODel (KStr "zz")].
Example C01_case : outputs (tree_step any_key any_val) tree_empty demo_ops =
  [RUnit; RUnit; RUnit; RUnit; RUnit; RVal None; RVal (Some 2); RNat 3; RErr EKeyError; RErr EKeyError].
Proof. vm_compute; reflexivity. Qed.
Example C01_case_rejected : snd (tree_step any_key any_val (st demo_ops) (OSet (KStr "x") None)) = RErr EValueError.
Proof. vm_compute; reflexivity. Qed.
Example C01_case_key : denotes any_key (KStr "a.bc") ["a"; "bc"].
Proof. right; repeat split; try discriminate. Qed.

Example C02_case : tree_iter (st demo_ops) 0 = Ok [4; 2; 3].
Proof. vm_compute; reflexivity. Qed.

Example C03_case : tree_contains any_key (st demo_ops) 0 (KStr "a.b") = Ok false
                /\ tree_contains any_key (st (firstn 4 demo_ops)) 0 (KStr "a.b") = Ok true
                /\ forallb no_projection demo_ops = true /\ parse any_key (KStr "a.b") = Some ["a"; "b"].
Proof. vm_compute; auto. Qed.

(** Without the restriction on projections C03 is false. *)
Theorem C03_after_projection_refuted : exists (ops : list (top nat)) k p, parse any_key k = Some p /\ p <> [] /\
  tree_contains any_key (st ops) 0 k = Ok true /\ ~ leads_to_value (final (map_step any_key any_val) map_empty ops) p.
Proof.
  exists [OProject [KStr "a.b"]], (KStr "a"), ["a"]; split; [reflexivity|]; split; [discriminate|].
  split; [vm_compute; reflexivity|]; intros (q & H); apply H; reflexivity.
Qed.

Definition proj_h := fst (project any_key (st demo_ops) 0 [KStr "a.d"; KStr "n"]).
Definition proj_r := match snd (project any_key (st demo_ops) 0 [KStr "a.d"; KStr "n"]) with Ok r => r | Err _ => 0 end.
Definition later : list (top nat) := [OSet (KStr "n.m") (Some 7); OSet (KStr "a.d") (Some 8); ODel (KStr "a"); OSet (KStr "q") (Some 9)].
Example C04_case :
  (project any_key (st demo_ops) 0 [KStr "a.d"; KStr "n"]) = (proj_h, Ok proj_r) /\
  let h2 := final (tree_step any_key any_val) proj_h later in
  tree_get any_key h2 proj_r (KStr "n.m") = Ok (Some 7) /\ tree_get any_key h2 proj_r (KStr "a.d") = Ok (Some 8) /\
  tree_get any_key h2 proj_r (KStr "q") = Ok None.
Proof. vm_compute; auto. Qed.
Example C04_case_kept : kept any_key any_val (final (map_step any_key any_val) map_empty demo_ops) ["n"] later.
Proof. cbn [kept later]; repeat split; exists ["m"]; vm_compute; discriminate. Qed.

(** Once the source pruned the projected path and it is stored again, the local tree no longer follows. *)
Theorem C04_after_prune_refuted : exists (ops1 ops2 : list (top nat)) h1 r k v,
  project any_key (st ops1) 0 [k] = (h1, Ok r) /\
  let h2 := final (tree_step any_key any_val) h1 ops2 in
  tree_get any_key h2 0 k = Ok (Some v) /\ tree_get any_key h2 r k = Ok None.
Proof.
  exists [OSet (KStr "a") (Some 1)], [ODel (KStr "a"); OSet (KStr "a") (Some 2)].
  exists (fst (project any_key (st [OSet (KStr "a") (Some 1)]) 0 [KStr "a"])), 2, (KStr "a"), 2.
  vm_compute; auto.
Qed.

Example C05_case : exists h1 r, project any_key (st demo_ops) 0 [KStr "x.y"] = (h1, Ok r) /\
  tree_contains any_key (st demo_ops) 0 (KStr "x") = Ok false /\ tree_contains any_key h1 0 (KStr "x") = Ok true.
Proof. do 2 eexists; split; [vm_compute; reflexivity|]; vm_compute; auto. Qed.

Print Assumptions C01_keys.
Print Assumptions C01_tree_is_map.
Print Assumptions C01_rejected_changes_nothing.
Print Assumptions C02_iteration.
Print Assumptions C03_membership.
Print Assumptions C03_membership_dot.
Print Assumptions C03_membership_after_projections.
Print Assumptions C03_after_projection_refuted.
Print Assumptions C04_projection_follows.
Print Assumptions C04_projection_hides_the_rest.
Print Assumptions C04_projection_total.
Print Assumptions C04_after_prune_refuted.
Print Assumptions C05_projection_keeps_values.
Print Assumptions C05_projection_presence.
