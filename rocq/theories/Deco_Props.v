(** C22, C23: stacks of decorators.

    The setting of the theorems: any program [os] runs first; then a function is defined (its number is [length (objs g)])
    and [items] happens: decorations of the current version of the function, mixed with any actions on other functions. *)
From Verif Require Import Base Deco_Model Deco_Spec Deco_Proofs.
From Coq Require Import Lia.

Section Props.
  Context {P : Type}.

  Lemma nexts_short : forall ds fb mt (ls : list (layer P)), length ls <= 1 -> length (snd (nexts (fb, mt, ls) ds)) <= 1.
  Proof.
    induction ds as [|d ds IH]; intros fb mt ls H; [exact H|]; cbn [nexts].
    destruct d; cbn [nextv]; destruct fb; try (apply IH; cbn; lia).
    destruct ls as [|l ls]; [apply IH; cbn; lia|]; destruct mt; apply IH; cbn in *; lia.
  Qed.

  Lemma nexts_logging : forall ds mt ls, Forall (@logging P) ds -> fst (fst (nexts (false, mt, ls) ds)) = false.
  Proof.
    induction ds as [|d ds IH]; intros mt ls H; [reflexivity|]; inversion H as [|? ? Hd Hr]; subst; cbn [nexts].
    destruct d; try contradiction; cbn [nextv]; [apply IH; exact Hr|].
    destruct ls; [apply IH; exact Hr|]; destruct mt; apply IH; exact Hr.
  Qed.

  Lemma nexts_keep : forall ds p, Forall (@by_class P) ds -> nexts (false, false, [LLog p]) ds = (false, false, [LLog p]).
  Proof.
    induction ds as [|d ds IH]; intros p H; [reflexivity|]; inversion H as [|? ? Hd Hr]; subst; cbn [nexts].
    destruct d; try contradiction; cbn [nextv]; apply IH; exact Hr.
  Qed.

  (** From the start, with logging decorators only: bare and unmarked, or logged. *)
  Lemma nexts_start : forall ds, Forall (@logging P) ds ->
    ds = [] \/ exists mt p, nexts (false, false, []) ds = (false, mt, [LLog p]).
  Proof.
    intros ds; induction ds as [|d ds IH] using rev_ind; intros H; [left; reflexivity|right].
    apply Forall_app in H; destruct H as [Ha Hd]; inversion Hd as [|? ? Hd1 _]; subst.
    rewrite nexts_app; destruct (IH Ha) as [->|[mt [p E]]].
    - destruct d; try contradiction; cbn; eauto.
    - rewrite E; destruct d; try contradiction; cbn [nexts nextv]; [eauto|]; destruct mt; eauto.
  Qed.

  Lemma nexts_class : forall ds, Forall (@by_class P) ds ->
    ds = [] \/ exists p, nexts (false, false, []) ds = (false, true, [LLog p]).
  Proof.
    intros ds; induction ds as [|d ds IH] using rev_ind; intros H; [left; reflexivity|right].
    apply Forall_app in H; destruct H as [Ha Hd]; inversion Hd as [|? ? Hd1 _]; subst.
    rewrite nexts_app; destruct (IH Ha) as [->|[p E]].
    - destruct d; try contradiction; cbn; eauto.
    - rewrite E; destruct d; try contradiction; cbn [nexts nextv]; eauto.
  Qed.

  Lemma stack_layers : forall os items, let g := run os (@empty P) in let f := length (objs g) in
    apart f (step g Def) f items ->
    let '(g', cur) := chain (step g Def) f items in layers g' cur = snd (nexts (false, false, []) (mine items)).
  Proof.
    intros os items g f A.
    pose proof (chain_inv items f (step g Def) f false false [] (Inv_start os) A) as C.
    destruct (chain (step g Def) f items) as [g' cur]; destruct C as [mt' C].
    destruct (nexts (false, false, []) (mine items)) as [[fb2 mt2] ls2]; destruct C as [_ C].
    exact (Inv_layers _ _ _ _ _ _ C).
  Qed.

  (** C22: however the decorators are stacked (logging, class, unlog, class with a list of methods), at most one wrapper
      stands between the caller and the function: one call makes at most one automatic record. *)
  Theorem C22_at_most_one_layer : forall os items, let g := run os (@empty P) in let f := length (objs g) in
    apart f (step g Def) f items ->
    let '(g', cur) := chain (step g Def) f items in length (layers g' cur) <= 1.
  Proof.
    intros os items g f A; pose proof (stack_layers os items A) as L; fold g f in L.
    destruct (chain (step g Def) f items) as [g' cur]; rewrite L; apply nexts_short; cbn; lia.
  Qed.

  (** C22: the last explicit @log wins: over the explicit and class decorators before it, and over the class decorators
      after it. *)
  Theorem C22_last_explicit_decorator_wins : forall os items a p b, let g := run os (@empty P) in let f := length (objs g) in
    apart f (step g Def) f items -> mine items = a ++ DLog p :: b -> Forall logging a -> Forall by_class b ->
    let '(g', cur) := chain (step g Def) f items in layers g' cur = [LLog p].
  Proof.
    intros os items a p b g f A E Ha Hb; pose proof (stack_layers os items A) as L; fold g f in L.
    destruct (chain (step g Def) f items) as [g' cur]; rewrite L, E, nexts_app.
    destruct (nexts_start a Ha) as [->|[mt [q Eq]]].
    - cbn [nexts nextv]; rewrite (nexts_keep b p Hb); reflexivity.
    - rewrite Eq; cbn [nexts nextv]; rewrite (nexts_keep b p Hb); reflexivity.
  Qed.

  (** C22: without an explicit @log, the last class decorator wins. *)
  Theorem C22_last_class_decorator_wins : forall os items a p, let g := run os (@empty P) in let f := length (objs g) in
    apart f (step g Def) f items -> mine items = a ++ [DMeth p] -> Forall by_class a ->
    let '(g', cur) := chain (step g Def) f items in layers g' cur = [LLog p].
  Proof.
    intros os items a p g f A E Ha; pose proof (stack_layers os items A) as L; fold g f in L.
    destruct (chain (step g Def) f items) as [g' cur]; rewrite L, E, nexts_app.
    destruct (nexts_class a Ha) as [->|[q Eq]]; [reflexivity|rewrite Eq; reflexivity].
  Qed.

  Lemma nexts_forbidden : forall ds mt ls, Forall (fun l => ~ @log_layer P l) ls ->
    Forall (fun l => ~ log_layer l) (snd (nexts (true, mt, ls) ds)).
  Proof.
    induction ds as [|d ds IH]; intros mt ls H; [exact H|]; cbn [nexts].
    destruct d; cbn [nextv]; apply IH; repeat constructor; cbn; tauto.
  Qed.

  Lemma nexts_unlogged : forall ds v, Exists (@unlogging P) ds -> Forall (fun l => ~ @log_layer P l) (snd (nexts v ds)).
  Proof.
    induction ds as [|d ds IH]; intros [[fb mt] ls] H; [inversion H|]; cbn [nexts].
    inversion H as [? ? Hd|? ? Hr]; subst.
    - destruct d; try contradiction; cbn [nextv]; apply nexts_forbidden; repeat constructor; cbn; tauto.
    - apply IH; exact Hr.
  Qed.

  (** C23: one @unlog anywhere in the stack: no logging wrapper remains. *)
  Theorem C23_unlog_wins : forall os items, let g := run os (@empty P) in let f := length (objs g) in
    apart f (step g Def) f items -> Exists unlogging (mine items) ->
    let '(g', cur) := chain (step g Def) f items in Forall (fun l => ~ log_layer l) (layers g' cur).
  Proof.
    intros os items g f A U; pose proof (stack_layers os items A) as L; fold g f in L.
    destruct (chain (step g Def) f items) as [g' cur]; rewrite L; apply nexts_unlogged; exact U.
  Qed.

  (** C23: the flag of the last @unlog counts if no logging decorator follows it ... *)
  Theorem C23_flag_of_the_last_unlog : forall os items a b, let g := run os (@empty P) in let f := length (objs g) in
    apart f (step g Def) f items -> mine items = a ++ [DUnlog b] ->
    let '(g', cur) := chain (step g Def) f items in layers g' cur = [LUnlog b].
  Proof.
    intros os items a b g f A E; pose proof (stack_layers os items A) as L; fold g f in L.
    destruct (chain (step g Def) f items) as [g' cur]; rewrite L, E, nexts_app.
    destruct (nexts (false, false, []) a) as [[fb mt] ls]; reflexivity.
  Qed.

  (** C23: ... and is forgotten if one does: the unlogging falls back to the full_unlog setting. *)
  Theorem C23_flag_lost_under_log : forall os items a d, let g := run os (@empty P) in let f := length (objs g) in
    apart f (step g Def) f items -> mine items = a ++ [d] -> Exists unlogging a -> logging d ->
    let '(g', cur) := chain (step g Def) f items in layers g' cur = [LUnlog None].
  Proof.
    intros os items a d g f A E U Hd; pose proof (stack_layers os items A) as L; fold g f in L.
    destruct (chain (step g Def) f items) as [g' cur]; rewrite L, E, nexts_app.
    assert (T : forall ds v, Exists (@unlogging P) ds -> fst (fst (nexts v ds)) = true).
    { induction ds as [|x ds IH]; intros [[fb mt] ls] H; [inversion H|]; cbn [nexts].
      inversion H as [? ? Hx|? ? Hr]; subst; [|apply IH; exact Hr].
      destruct x; try contradiction; cbn [nextv]; apply (nexts_forb ds mt mt). }
    specialize (T a (false, false, []) U).
    destruct (nexts (false, false, []) a) as [[fb mt] ls]; cbn in T; subst.
    destruct d; try contradiction; reflexivity.
  Qed.
End Props.

(** Examples: with parameters that are numbers. *)
Definition other_stuff : list (op nat) := [Def; On 0 (DLog 100)].
Example ex_stack : let g := run other_stuff empty in
  let items := [Mine (DMeth 1); Other (On 0 (DUnlog None)); Mine (DLog 2); Other Def; Mine (DLog 3); Mine (DMeth 4)] in
  apart (length (objs g)) (step g Def) (length (objs g)) items /\
  (let '(g', cur) := chain (step g Def) (length (objs g)) items in layers g' cur) = [LLog 3].
Proof. vm_compute; repeat split; discriminate. Qed.
Example ex_class_twice : let '(g, cur) := chain (step (@empty nat) Def) 0 [Mine (DMeth 1); Mine (DMeth 2)] in layers g cur = [LLog 2].
Proof. reflexivity. Qed.
Example ex_unlog_inside : let '(g, cur) := chain (step (@empty nat) Def) 0 [Mine (DUnlog (Some true)); Mine (DLog 2)] in layers g cur = [LUnlog None].
Proof. reflexivity. Qed.
Example ex_unlog_outside : let '(g, cur) := chain (step (@empty nat) Def) 0 [Mine (DLog 2); Mine (DMeth 1); Mine (DUnlog (Some true))] in layers g cur = [LUnlog (Some true)].
Proof. reflexivity. Qed.

(** Without the linearity of the stack the claims fail.  A wrapper used twice is forgotten by the registry: log(f) = g,
    then log(g), then log(g) again: two logging wrappers, two records a call. *)
Theorem C22_reused_wrapper_refuted : exists os f, length (layers (run os (@empty nat)) f) = 2 /\
  Forall log_layer (layers (run os (@empty nat)) f).
Proof. exists [Def; On 0 (DLog 1); On 1 (DLog 2); On 1 (DLog 3)], 3; split; [reflexivity|repeat constructor]. Qed.

(** The same with unlog at the end: a logging wrapper remains under the unlogging one. *)
Theorem C23_reused_wrapper_refuted : exists os f, layers (run os (@empty nat)) f = [LUnlog None; LLog 1].
Proof. exists [Def; On 0 (DLog 1); On 1 (DLog 2); On 1 (DUnlog None)], 3; reflexivity. Qed.

(** The method mark belongs to the original: a class decorator with a list of methods leaves it behind, and then a class
    decorator replaces an explicit @log. *)
Theorem C22_priority_after_methods_list_refuted : exists ds : list (deco nat),
  let '(g, cur) := chain (step empty Def) 0 (map Mine ds) in
  ds = [DMeth 1; DOrig; DLog 2; DMeth 3] /\ layers g cur = [LLog 3].
Proof. exists [DMeth 1; DOrig; DLog 2; DMeth 3]; cbv zeta; vm_compute; split; reflexivity. Qed.

(** A class decorator with a list of methods takes an explicit @log and an @unlog off the methods it does not name. *)
Theorem C22_methods_list_strips_refuted : exists ds : list (deco nat),
  let '(g, cur) := chain (step empty Def) 0 (map Mine ds) in ds = [DLog 1; DOrig] /\ layers g cur = [].
Proof. exists [DLog 1; DOrig]; vm_compute; split; reflexivity. Qed.

Print Assumptions C22_at_most_one_layer.
Print Assumptions C22_last_explicit_decorator_wins.
Print Assumptions C22_last_class_decorator_wins.
Print Assumptions C22_reused_wrapper_refuted.
Print Assumptions C23_unlog_wins.
Print Assumptions C23_flag_of_the_last_unlog.
Print Assumptions C23_flag_lost_under_log.
Print Assumptions C23_reused_wrapper_refuted.
