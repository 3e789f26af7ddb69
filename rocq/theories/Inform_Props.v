(** C81: SettingsStore.__init__ with any number of store objects. *)
From Verif Require Import Base Inform_Model.
Local Open Scope string_scope.
Local Open Scope list_scope.

(** * Specification *)
(** The settings that are changed under one lock. *)
Definition together : list (list string) :=
  [["started"; "pool_size"; "max_queue_size"]; ["default_level"; "default_error_level"]; ["logging_off"; "integration_with_logging"]].
Definition one_lock (a b : string) : Prop := a = b \/ exists g, In g together /\ In a g /\ In b g.
Definition setting (k : string) : Prop := In k
  ["pool_size"; "max_queue_size"; "started"; "level"; "default_level"; "default_error_level"; "service_name"; "silent_internal_exceptions";
   "max_delay_before_exit"; "delay_on_exit_loop_iteration_in_quants"; "time_quant"; "engine"; "json_module"; "smart_assert_politic";
   "debug_mode"; "fields_intersection"; "unknown_fields_in_handle_logs"; "deduplicate_errors"; "log_is_built_in"; "full_unlog";
   "suppress_by_default"; "suppress_exception_subclasses"; "integration_with_logging"; "logging_off"; "traceback_cutting"].
Definition own_locks (l : string -> nat) : Prop := forall a b, setting a -> setting b -> l a = l b -> a = b.
(** Nobody is in __init__, and some __init__ was finished. *)
Definition quiet (s : ist) : Prop := todo s = [] /\ informed s <> [].
(** How often polog's filter is at the root logger. *)
Definition ours (l : list (option nat)) : nat := length (filter (fun f => match f with None => true | _ => false end) l).
(** No assignment comes in the middle of an __init__. *)
Fixpoint apart (s : ist) (l : list event) : Prop :=
  match l with
  | [] => True
  | e :: r => (match e with Assign _ => todo s = [] | _ => True end) /\
              match happen s e with Some (Ok s1) => apart s1 r | _ => True end
  end.

(** * Proofs *)
Definition rep (k : string) : string :=
  if String.eqb k "max_queue_size" then "pool_size" else if String.eqb k "started" then "pool_size"
  else if String.eqb k "default_error_level" then "default_level"
  else if String.eqb k "logging_off" then "integration_with_logging" else k.
Definition linked (l : string -> nat) : Prop := forall k, l k = l (rep k).
Definition lk (l : string -> nat) (x : step) : string -> nat := match x with SShare k m => upd l m (l k) | _ => l end.

Definition is_name (k : string) (x : step) : bool := match x with SName j => String.eqb k j | _ => false end.
Definition is_store (k : string) (x : step) : bool := match x with SStore j _ => String.eqb k j | _ => false end.
Definition known (d : list step) (k : string) : bool := existsb (is_name k) d && existsb (is_store k) d.
Definition okb (d : list step) (x : step) : bool :=
  match x with
  | SShare k m => known d k && negb (String.eqb m k) && existsb (String.eqb m) (map fst table) && String.eqb (rep k) (rep m)
  | SDone _ => forallb (known d) (map fst table)
  | _ => true
  end.
Fixpoint safe (d l : list step) : bool := match l with [] => true | x :: r => okb d x && safe (d ++ [x]) r end.
Lemma safe_split : forall a d x r, safe d (a ++ x :: r) = true -> okb (d ++ a) x = true.
Proof.
  induction a as [|y a IH]; intros d x r H; cbn [app safe] in H; apply andb_true_iff in H; destruct H as [H1 H2].
  - rewrite app_nil_r. exact H1.
  - apply IH in H2. rewrite <- app_assoc in H2. exact H2.
Qed.
Lemma steps_safe : forall o d x r, d ++ x :: r = steps o -> okb d x = true.
Proof.
  intros o d x r H. apply (safe_split d [] x r). rewrite H. vm_compute. reflexivity.
Qed.
Definition of_object (o : nat) (x : step) : Prop := match x with SStore _ u => u = o | SDone u => u = o | _ => True end.
Lemma steps_of : forall o, Forall (of_object o) (steps o).
Proof. intros o. vm_compute. repeat constructor. Qed.
Definition pre (o : nat) : list step := removelast (steps o).
Lemma steps_pre : forall o, steps o = pre o ++ [SDone o].
Proof. intros o. reflexivity. Qed.
Lemma pre_no_done : forall o, Forall (fun x => match x with SDone _ => False | _ => True end) (pre o).
Proof. intros o. vm_compute. repeat constructor. Qed.
Lemma done_last : forall o d u r, d ++ SDone u :: r = steps o -> u = o /\ r = [].
Proof.
  intros o d u r H. split.
  - pose proof (steps_of o) as F. rewrite <- H in F. rewrite Forall_forall in F. apply (F (SDone u)). apply in_or_app. right. left. reflexivity.
  - destruct r as [|y r _] using rev_ind; auto. rewrite steps_pre in H.
    change (d ++ SDone u :: r ++ [y] = pre o ++ [SDone o]) in H. rewrite app_comm_cons, app_assoc in H. apply app_inj_tail in H. destruct H as [H _].
    pose proof (pre_no_done o) as F. rewrite <- H in F. rewrite Forall_forall in F. exfalso. apply (F (SDone u)). apply in_or_app. right. left. reflexivity.
Qed.
Lemma not_last : forall o d x, d ++ [x] = steps o -> x = SDone o.
Proof. intros o d x H. rewrite steps_pre in H. apply app_inj_tail in H. apply H. Qed.

Lemma first_pass : forall l0 o k, fold_left lk (steps o) l0 k = l0 (rep k).
Proof.
  intros l0 o k. cbn [steps table flat_map map fst snd app first_time String.eqb Ascii.eqb Bool.eqb fold_left lk]. unfold upd, rep.
  cbn [String.eqb Ascii.eqb Bool.eqb].
  repeat match goal with |- context [String.eqb k ?x] => destruct (String.eqb_spec k x); [subst k; try reflexivity | ] end; reflexivity.
Qed.
Lemma rep_rep : forall k, rep (rep k) = rep k.
Proof.
  intros k. unfold rep.
  repeat match goal with |- context [String.eqb k ?x] => destruct (String.eqb_spec k x); [reflexivity | ] end.
  repeat match goal with H : k <> ?x |- context [String.eqb k ?x] => rewrite (proj2 (String.eqb_neq k x) H) end. reflexivity.
Qed.

Lemma ours_app : forall a b, ours (a ++ b) = ours a + ours b.
Proof. intros. unfold ours. rewrite filter_app, app_length. reflexivity. Qed.
Lemma ours_there : forall l, existsb (feq None) l = negb (Nat.eqb (ours l) 0).
Proof. induction l as [|[x|] l IH]; cbn; auto. Qed.
Lemma ours_other : forall l f, ours (add_filter l (Some f)) = ours l /\ ours (remove_filter l (Some f)) = ours l.
Proof.
  intros l f. split.
  - unfold add_filter. destruct existsb; auto. rewrite ours_app. cbn. lia.
  - unfold ours in *. induction l as [|[x|] l IH]; cbn; auto. destruct (Nat.eqb f x); auto.
Qed.
Lemma ours_integrate : forall l b, ours l <= 1 -> ours (integrate l b) = if b then 1 else 0.
Proof.
  intros l [|] H; cbn [integrate].
  - unfold add_filter. rewrite ours_there. destruct (Nat.eqb_spec (ours l) 0) as [E|E]; cbn [negb]; [rewrite ours_app, E; reflexivity | lia].
  - unfold ours in *. induction l as [|[x|] l IH]; cbn in *; auto; lia.
Qed.

(** The invariant: [d] are the steps already made of the __init__ that is going on. *)
Record good (l0 : string -> nat) (s : ist) : Prop := mkG {
  g_todo : todo s <> [] -> exists o d, d ++ todo s = steps o
           /\ (forall k, existsb (is_name k) d = true -> nameof s k = Some k)
           /\ (forall k, existsb (is_store k) d = true -> storeof s k = Some o)
           /\ (informed s = [] -> lockof s = fold_left lk d l0);
  g_first : informed s = [] -> todo s = [] -> lockof s = l0;
  g_locks : informed s <> [] -> forall k, lockof s k = l0 (rep k);
  g_quiet : forall o r, informed s = o :: r -> todo s = [] -> forall k, setting k -> storeof s k = Some o /\ nameof s k = Some k }.

Lemma good_start : forall l0, good l0 (start l0).
Proof. intros l0. constructor; cbn; congruence. Qed.

Lemma good_step : forall l0 s x r, good l0 s -> todo s = x :: r -> exists s1, do_step s x r = Ok s1 /\ good l0 s1 /\
  (informed s <> [] -> forall k, lockof s1 k = lockof s k).
Proof.
  intros l0 s x r G E. destruct (g_todo _ _ G) as (o & d & D & N & S & L); [rewrite E; discriminate|]. rewrite E in D.
  pose proof (steps_safe _ _ _ _ D) as OK.
  assert (D2 : (d ++ [x]) ++ r = steps o) by (rewrite <- app_assoc; exact D).
  assert (R : (forall u, x <> SDone u) -> r <> []).
  { intros H ->. apply (H o). apply (not_last o d). exact D. }
  assert (FO : of_object o x).
  { pose proof (steps_of o) as F. rewrite <- D in F. rewrite Forall_forall in F. apply F. apply in_or_app. right. left. reflexivity. }
  destruct x as [k u|k|k m|k| |u]; cbn [do_step].
  - cbn in FO. subst u. eexists. split; [reflexivity|]. split; [|intros _ j; reflexivity].
    constructor; cbn [todo nameof storeof informed lockof].
    + intros _. exists o, (d ++ [SStore k o]). split; [exact D2|]. split; [|split].
      * intros j Hj. apply N. rewrite existsb_app in Hj. cbn in Hj. rewrite orb_false_r in Hj. exact Hj.
      * intros j Hj. rewrite existsb_app in Hj. cbn in Hj. rewrite orb_false_r in Hj. unfold upd. destruct (String.eqb j k); [reflexivity|].
        rewrite orb_false_r in Hj. apply S. exact Hj.
      * intros I. rewrite fold_left_app. cbn. auto.
    + intros _ H. exfalso. apply R; [intros v; discriminate | exact H].
    + apply (g_locks _ _ G).
    + intros v w _ H. exfalso. apply R; [intros z; discriminate | exact H].
  - eexists. split; [reflexivity|]. split; [|intros _ j; reflexivity].
    constructor; cbn [todo nameof storeof informed lockof].
    + intros _. exists o, (d ++ [SName k]). split; [exact D2|]. split; [|split].
      * intros j Hj. rewrite existsb_app in Hj. cbn in Hj. rewrite orb_false_r in Hj. unfold upd. destruct (String.eqb_spec j k) as [Ej|Ej]; [rewrite Ej; reflexivity|].
        rewrite orb_false_r in Hj. apply N. exact Hj.
      * intros j Hj. apply S. rewrite existsb_app in Hj. cbn in Hj. rewrite orb_false_r in Hj. exact Hj.
      * intros I. rewrite fold_left_app. cbn. auto.
    + intros _ H. exfalso. apply R; [intros v; discriminate | exact H].
    + apply (g_locks _ _ G).
    + intros v w _ H. exfalso. apply R; [intros z; discriminate | exact H].
  - cbn [okb] in OK. apply andb_true_iff in OK. destruct OK as [OK O4]. apply andb_true_iff in OK. destruct OK as [OK O3].
    apply andb_true_iff in OK. destruct OK as [O1 O2]. unfold known in O1. apply andb_true_iff in O1. destruct O1 as [O1 O1'].
    unfold share_one. rewrite (N k O1), (S k O1'). apply negb_true_iff in O2. rewrite O2, O3. cbn [bindR].
    apply String.eqb_eq in O4.
    assert (K : informed s <> [] -> forall j, upd (lockof s) m (lockof s k) j = lockof s j).
    { intros I j. unfold upd. destruct (String.eqb_spec j m) as [Ej|Ej]; [rewrite Ej|reflexivity]. rewrite !(g_locks _ _ G I), O4. reflexivity. }
    eexists. split; [reflexivity|]. split; [|exact K].
    constructor; cbn [todo nameof storeof informed lockof].
    + intros _. exists o, (d ++ [SShare k m]). split; [exact D2|]. split; [|split].
      * intros j Hj. apply N. rewrite existsb_app in Hj. cbn in Hj. rewrite orb_false_r in Hj. exact Hj.
      * intros j Hj. apply S. rewrite existsb_app in Hj. cbn in Hj. rewrite orb_false_r in Hj. exact Hj.
      * intros I. rewrite fold_left_app. cbn [fold_left lk]. rewrite <- (L I). reflexivity.
    + intros _ H. exfalso. apply R; [intros v; discriminate | exact H].
    + intros I j. rewrite (K I). apply (g_locks _ _ G I).
    + intros v w _ H. exfalso. apply R; [intros z; discriminate | exact H].
  - eexists. split; [reflexivity|]. split; [|intros _ j; reflexivity].
    constructor; cbn [todo nameof storeof informed lockof].
    + intros _. exists o, (d ++ [SRead k]). split; [exact D2|]. split; [|split].
      * intros j Hj. apply N. rewrite existsb_app in Hj. cbn in Hj. rewrite orb_false_r in Hj. exact Hj.
      * intros j Hj. apply S. rewrite existsb_app in Hj. cbn in Hj. rewrite orb_false_r in Hj. exact Hj.
      * intros I. rewrite fold_left_app. cbn. auto.
    + intros _ H. exfalso. apply R; [intros v; discriminate | exact H].
    + apply (g_locks _ _ G).
    + intros v w _ H. exfalso. apply R; [intros z; discriminate | exact H].
  - eexists. split; [reflexivity|]. split; [|intros _ j; reflexivity].
    constructor; cbn [todo nameof storeof informed lockof].
    + intros _. exists o, (d ++ [SApply]). split; [exact D2|]. split; [|split].
      * intros j Hj. apply N. rewrite existsb_app in Hj. cbn in Hj. rewrite orb_false_r in Hj. exact Hj.
      * intros j Hj. apply S. rewrite existsb_app in Hj. cbn in Hj. rewrite orb_false_r in Hj. exact Hj.
      * intros I. rewrite fold_left_app. cbn. auto.
    + intros _ H. exfalso. apply R; [intros v; discriminate | exact H].
    + apply (g_locks _ _ G).
    + intros v w _ H. exfalso. apply R; [intros z; discriminate | exact H].
  - destruct (done_last _ _ _ _ D) as [-> ->].
    eexists. split; [reflexivity|]. split; [|intros _ j; reflexivity].
    constructor; cbn [todo nameof storeof informed lockof].
    + congruence.
    + discriminate.
    + intros _ j. destruct (informed s) eqn:I.
      * rewrite (L eq_refl). rewrite <- (first_pass l0 o j), <- D, fold_left_app. reflexivity.
      * apply (g_locks _ _ G). rewrite I. discriminate.
    + intros v w H _ j J. injection H as <- _. cbn [okb] in OK. rewrite forallb_forall in OK. specialize (OK j J).
      unfold known in OK. apply andb_true_iff in OK. destruct OK as [O1 O2]. auto.
Qed.

Lemma good_same : forall l0 s s1, good l0 s -> todo s1 = todo s -> nameof s1 = nameof s -> storeof s1 = storeof s -> lockof s1 = lockof s ->
  informed s1 = informed s -> good l0 s1.
Proof.
  intros l0 s s1 [G1 G2 G3 G4] A B C D E. constructor; rewrite ?A, ?B, ?C, ?D, ?E; auto.
Qed.

Lemma good_happen : forall l0 s e, good l0 s -> happen s e = None \/ exists s1, happen s e = Some (Ok s1) /\ good l0 s1 /\
  (informed s <> [] -> informed s1 <> [] /\ forall k, lockof s1 k = lockof s k).
Proof.
  intros l0 s e G. destruct e as [o| |b|f|f]; cbn [happen].
  - destruct (todo s) eqn:T; [right|left; reflexivity]. destruct (existsb (Nat.eqb o) (informed s)).
    + exists s. auto.
    + eexists. split; [reflexivity|]. split; [|cbn; auto]. constructor; cbn [todo nameof storeof informed lockof].
      * intros _. exists o, []. split; [reflexivity|]. split; [|split]; cbn; try discriminate. intros I. apply (g_first _ _ G I T).
      * intros _ H. discriminate H.
      * apply (g_locks _ _ G).
      * intros v w _ H. discriminate H.
  - destruct (todo s) as [|x r] eqn:T; [left; reflexivity|right]. destruct (good_step l0 s x r G T) as (s1 & A & B & C).
    exists s1. rewrite A. split; [reflexivity|]. split; [exact B|]. intros I. split; [|apply C, I].
    destruct x; cbn [do_step] in A; try (injection A as <-; cbn; first [exact I | discriminate]).
    destruct (share_one s k m); cbn in A; [injection A as <-; exact I | discriminate A].
  - destruct (informed s) eqn:I; [left; reflexivity|right]. eexists. split; [reflexivity|]. split.
    + apply (good_same l0 s); auto.
    + intros _. cbn. split; [discriminate|reflexivity].
  - right. eexists. split; [reflexivity|]. split; [apply (good_same l0 s); auto|]. cbn. auto.
  - right. eexists. split; [reflexivity|]. split; [apply (good_same l0 s); auto|]. cbn. auto.
Qed.

Lemma good_history : forall l l0 s, good l0 s -> history s l = None \/ exists s1, history s l = Some (Ok s1) /\ good l0 s1 /\
  (informed s <> [] -> informed s1 <> [] /\ forall k, lockof s1 k = lockof s k).
Proof.
  induction l as [|e l IH]; intros l0 s G; cbn [history].
  - right. exists s. auto.
  - destruct (good_happen l0 s e G) as [H | (s1 & H & G1 & K)]; rewrite H; auto.
    destruct (IH l0 s1 G1) as [H2 | (s2 & H2 & G2 & K2)]; auto. right. exists s2. split; [exact H2|]. split; [exact G2|].
    intros I. destruct (K I) as [I1 L1]. destruct (K2 I1) as [I2 L2]. split; [exact I2|]. intros k. rewrite L2. apply L1.
Qed.

Lemma step_todo : forall s x r s1, do_step s x r = Ok s1 -> todo s1 = r.
Proof.
  intros s x r s1 H. destruct x; cbn [do_step] in H; try (injection H as <-; reflexivity).
  destruct (share_one s k m); cbn in H; [injection H as <-; reflexivity | discriminate H].
Qed.

(** The filter. *)
Fixpoint after (l : list step) : bool :=
  match l with
  | [] => true
  | SApply :: r => forallb (fun x => match x with SRead _ | SApply => false | _ => true end) r && after r
  | _ :: r => after r
  end.
Lemma after_app : forall a b, after (a ++ b) = true -> after b = true.
Proof.
  induction a as [|x a IH]; intros b H; auto. apply IH. destruct x; cbn [app after] in H; auto. apply andb_true_iff in H. apply H.
Qed.
Definition num (b : bool) : nat := if b then 1 else 0.
Definition settled (s : ist) : Prop :=
  ours (filters s) <= 1 /\
  (informed s = [] /\ todo s = [] \/
   ((In SApply (todo s) \/ ours (filters s) = num (integration s)) /\
    ((exists k, In (SRead k) (todo s)) \/ ~ In SApply (todo s) \/ register s = integration s))).

Lemma settled_step : forall s x r s1, settled s -> todo s = x :: r -> after (todo s) = true -> do_step s x r = Ok s1 -> settled s1.
Proof.
  intros s x r s1 [A [[_ B] | [B C]]] T F H; [rewrite T in B; discriminate B|]. rewrite T in B, C, F.
  destruct x as [k u|k|k m|k| |u]; cbn [do_step] in H.
  6: { injection H as <-. split; [exact A|]. right. cbn [todo filters integration register]. split.
       - destruct B as [[B|B]|B]; auto. discriminate B.
       - destruct C as [[j [C|C]]|[C|C]]; auto; [discriminate C | left; exists j; exact C | right; left; intros X; apply C; right; exact X]. }
  5: { injection H as <-. cbn [after] in F. apply andb_true_iff in F. destruct F as [F _]. rewrite forallb_forall in F.
       assert (E : register s = integration s).
       { destruct C as [[j [C|C]]|[C|C]]; auto; [discriminate C | specialize (F _ C); discriminate F | exfalso; apply C; left; reflexivity]. }
       split; cbn [todo filters integration register].
       - rewrite (ours_integrate _ _ A). destruct (register s); lia.
       - right. split; [right; rewrite (ours_integrate _ _ A), E; reflexivity | right; right; exact E]. }
  4: { injection H as <-. split; [exact A|]. right. cbn [todo filters integration register]. split.
       - destruct B as [[B|B]|B]; auto. discriminate B.
       - auto. }
  3: { destruct (share_one s k m); cbn in H; [injection H as <- | discriminate H].
       split; [exact A|]. right. cbn [todo filters integration register]. split.
       - destruct B as [[B|B]|B]; auto. discriminate B.
       - destruct C as [[j [C|C]]|[C|C]]; auto; [discriminate C | left; exists j; exact C | right; left; intros X; apply C; right; exact X]. }
  all: injection H as <-; split; [exact A|]; right; cbn [todo filters integration register]; split;
    [ destruct B as [[B|B]|B]; auto; discriminate B
    | destruct C as [[j [C|C]]|[C|C]]; auto; [discriminate C | left; exists j; exact C | right; left; intros X; apply C; right; exact X]].
Qed.
Lemma settled_happen : forall l0 s e s1, good l0 s -> settled s -> (match e with Assign _ => todo s = [] | _ => True end) ->
  happen s e = Some (Ok s1) -> settled s1.
Proof.
  intros l0 s e s1 G [A B] P H. destruct e as [o| |b|f|f]; cbn [happen] in H.
  - destruct (todo s) eqn:T; [|discriminate H]. destruct (existsb (Nat.eqb o) (informed s)); injection H as <-.
    + split; [exact A|]. rewrite T. exact B.
    + split; [exact A|]. right. cbn [todo filters integration register]. rewrite <- T in *. 
      assert (X : In SApply (steps o) /\ In (SRead "integration_with_logging") (steps o)).
      { unfold steps. split; apply in_or_app; right; apply in_or_app; right; apply in_or_app; left; vm_compute; auto. }
      split; [left; apply X | left; eexists; apply X].
  - destruct (todo s) as [|x r] eqn:T; [discriminate H|]. injection H as H. apply (settled_step s x r s1); auto.
    + split; [exact A|]. rewrite T. exact B.
    + destruct (g_todo _ _ G) as (o & d & D & _); [rewrite T; discriminate|]. apply (after_app d). rewrite D. vm_compute. reflexivity.
  - destruct (informed s) eqn:I; [discriminate H|]. injection H as <-. rewrite P in B. destruct B as [[B _] | [[[]|B] _]]; [discriminate B|].
    assert (X : ours (if Bool.eqb (integration s) b then filters s else integrate (filters s) b) = num b).
    { destruct (Bool.eqb (integration s) b) eqn:E; [apply eqb_prop in E; rewrite B, E; reflexivity | apply (ours_integrate _ _ A)]. }
    split; cbn [todo filters integration register informed].
    + rewrite X. destruct b; cbn; lia.
    + right. rewrite P. split; [right; exact X | right; left; intros []].
  - injection H as <-. destruct (ours_other (filters s) f) as [X _]. unfold settled, set_filters. cbn [todo filters integration register informed].
    rewrite X. auto.
  - injection H as <-. destruct (ours_other (filters s) f) as [_ X]. unfold settled, set_filters. cbn [todo filters integration register informed].
    rewrite X. auto.
Qed.
Lemma settled_history : forall l l0 s s1, good l0 s -> settled s -> apart s l -> history s l = Some (Ok s1) -> settled s1.
Proof.
  induction l as [|e l IH]; intros l0 s s1 G F P H; cbn [history] in H.
  - injection H as <-. exact F.
  - destruct P as [P1 P2]. destruct (good_happen l0 s e G) as [X | (s2 & X & G2 & _)]; rewrite X in H; [discriminate H|]. rewrite X in P2.
    apply (IH l0 s2 s1 G2); auto. apply (settled_happen l0 s e s2); auto.
Qed.

Lemma rep_one_lock : forall a b, setting a -> setting b -> (rep a = rep b <-> one_lock a b).
Proof.
  assert (X : forallb (fun a => forallb (fun b => Bool.eqb (String.eqb (rep a) (rep b))
    (String.eqb a b || existsb (fun g => existsb (String.eqb a) g && existsb (String.eqb b) g) together)) (map fst table)) (map fst table) = true)
    by (vm_compute; reflexivity).
  assert (M : forall a g, existsb (String.eqb a) g = true <-> In a g).
  { intros a g. rewrite existsb_exists. split; [intros (y & H & E); apply String.eqb_eq in E; subst; exact H | intros H; exists a; split; [exact H | apply String.eqb_refl]]. }
  intros a b A B. rewrite forallb_forall in X. specialize (X a A). rewrite forallb_forall in X. specialize (X b B). apply eqb_prop in X.
  rewrite <- String.eqb_eq, X, orb_true_iff, String.eqb_eq, existsb_exists. unfold one_lock.
  split; intros [H|(g & H1 & H2)]; auto; right; exists g; split; auto.
  - apply andb_true_iff in H2. rewrite !M in H2. exact H2.
  - apply andb_true_iff. rewrite !M. exact H2.
Qed.
Lemma rep_setting : forall k, setting k -> setting (rep k).
Proof.
  intros k H. unfold rep, setting.
  repeat match goal with |- context [String.eqb k ?x] => destruct (String.eqb k x); [vm_compute; tauto | ] end. exact H.
Qed.

(** * Theorems *)
(** No __init__ raises, whatever comes between its steps, and the thread inside always can go on. *)
Theorem C81_never_raises : forall l0 l e, history (start l0) l <> Some (Err e).
Proof.
  intros l0 l e H. destruct (good_history l l0 _ (good_start l0)) as [X | (s1 & X & _)]; rewrite X in H; discriminate H.
Qed.
Theorem C81_finishes : forall l0 l s, history (start l0) l = Some (Ok s) ->
  exists s1, history s (repeat Go (length (todo s))) = Some (Ok s1) /\ todo s1 = [].
Proof.
  intros l0 l s H. destruct (good_history l l0 _ (good_start l0)) as [X | (s0 & X & G & _)]; rewrite X in H; [discriminate H|].
  injection H as ->. clear X. remember (length (todo s)) as n eqn:N. revert s G N. induction n as [|n IH]; intros s G N.
  - exists s. split; [reflexivity|]. destruct (todo s); [reflexivity | discriminate N].
  - destruct (todo s) as [|x r] eqn:T; [discriminate N|]. destruct (good_step l0 s x r G T) as (s1 & A & G1 & _).
    cbn [repeat history happen]. rewrite T, A. apply IH; auto. rewrite (step_todo _ _ _ _ A). injection N as N. exact N.
Qed.

(** Two settings have the same lock exactly if they are to be changed together, from the end of the first __init__ on. *)
Theorem C81_locks : forall l0 l s a b, own_locks l0 -> history (start l0) l = Some (Ok s) -> informed s <> [] -> setting a -> setting b ->
  (lockof s a = lockof s b <-> one_lock a b).
Proof.
  intros l0 l s a b O H I A B. destruct (good_history l l0 _ (good_start l0)) as [X | (s0 & X & G & _)]; rewrite X in H; [discriminate H|].
  injection H as ->. rewrite !(g_locks _ _ G I), <- (rep_one_lock a b A B). split; [|congruence].
  apply O; apply rep_setting; assumption.
Qed.
(** ... and no lock is exchanged any more, not even in the middle of the __init__ of another object: two threads that change settings that
    belong together never have different locks. *)
Theorem C81_locks_stay : forall l0 l1 s1 l2 s2 k, history (start l0) l1 = Some (Ok s1) -> informed s1 <> [] -> history s1 l2 = Some (Ok s2) ->
  lockof s2 k = lockof s1 k.
Proof.
  intros l0 l1 s1 l2 s2 k H I H2. destruct (good_history l1 l0 _ (good_start l0)) as [X | (s0 & X & G & _)]; rewrite X in H; [discriminate H|].
  injection H as ->. destruct (good_history l2 l0 _ G) as [X2 | (s3 & X2 & _ & K)]; rewrite X2 in H2; [discriminate H2|].
  injection H2 as ->. apply K. exact I.
Qed.

(** Every point knows its name and the object that was informed last. *)
Theorem C81_points : forall l0 l s k, history (start l0) l = Some (Ok s) -> quiet s -> setting k ->
  nameof s k = Some k /\ storeof s k = hd_error (informed s).
Proof.
  intros l0 l s k H [Q1 Q2] K. destruct (good_history l l0 _ (good_start l0)) as [X | (s0 & X & G & _)]; rewrite X in H; [discriminate H|].
  injection H as ->. destruct (informed s) as [|o r] eqn:I; [congruence|]. destruct (g_quiet _ _ G o r I Q1 k K) as [A B]. auto.
Qed.

(** An object informs the points once: calling SettingsStore() again changes nothing. *)
Theorem C81_once : forall s o, In o (informed s) -> todo s = [] -> history s [Make o] = Some (Ok s).
Proof.
  intros s o H T. cbn [history happen]. rewrite T.
  replace (existsb (Nat.eqb o) (informed s)) with true; [reflexivity|]. symmetry. apply existsb_exists. exists o. split; [exact H | apply Nat.eqb_refl].
Qed.

(** Polog's filter is at the root logger once if the setting is on and not at all if it is off, however many objects were made... *)
Theorem C81_filter : forall l0 l s, history (start l0) l = Some (Ok s) -> apart (start l0) l -> quiet s ->
  ours (filters s) = if integration s then 1 else 0.
Proof.
  intros l0 l s H P [Q1 Q2]. assert (F : settled (start l0)) by (split; cbn; auto).
  destruct (settled_history l l0 _ s (good_start l0) F P H) as [_ [[B _] | [[B|B] _]]]; [congruence | rewrite Q1 in B; destruct B | exact B].
Qed.
(** ... and never more than once, even if assignments come in the middle of an __init__. *)
Theorem C81_never_twice : forall l0 l s, history (start l0) l = Some (Ok s) -> ours (filters s) <= 1.
Proof.
  intros l0 l. assert (X : ours (filters (start l0)) <= 1) by (cbn; lia). revert X. generalize (start l0) as s0.
  induction l as [|e l IH]; intros s0 A s H; cbn [history] in H; [injection H as <-; exact A|].
  destruct (happen s0 e) as [[s1|x]|] eqn:E; [|discriminate H|discriminate H]. apply (IH s1); auto.
  destruct e as [o| |b|f|f]; cbn [happen] in E.
  - destruct (todo s0); [|discriminate E]. destruct (existsb (Nat.eqb o) (informed s0)); injection E as <-; exact A.
  - destruct (todo s0) as [|x r]; [discriminate E|]. injection E as E. destruct x; cbn [do_step] in E; try (injection E as <-; exact A).
    + destruct (share_one s0 k m); cbn in E; [injection E as <-; exact A | discriminate E].
    + injection E as <-. cbn [filters]. rewrite (ours_integrate _ _ A). destruct (register s0); lia.
  - destruct (informed s0); [discriminate E|]. injection E as <-. cbn [filters]. destruct Bool.eqb; auto.
    rewrite (ours_integrate _ _ A). destruct b; lia.
  - injection E as <-. cbn [filters set_filters]. rewrite (proj1 (ours_other _ f)). exact A.
  - injection E as <-. cbn [filters set_filters]. rewrite (proj2 (ours_other _ f)). exact A.
Qed.

(** * Examples *)
Fixpoint place (l : list string) (k : string) : nat := match l with [] => 0 | x :: r => if String.eqb k x then 0 else S (place r k) end.
Definition locks0 : string -> nat := place (map fst table).
Definition all_of (o : nat) : list event := Make o :: repeat Go (length (steps o)).
Definition look (x : option (Res ist)) (k : string) :=
  match x with
  | Some (Ok s) => Some (lockof s k, storeof s k, nameof s k, ours (filters s), integration s, informed s)
  | _ => None
  end.
Lemma own_locks0 : own_locks locks0.
Proof.
  assert (X : forallb (fun a => forallb (fun b => implb (Nat.eqb (locks0 a) (locks0 b)) (String.eqb a b)) (map fst table)) (map fst table) = true)
    by (vm_compute; reflexivity).
  intros a b A B E. rewrite forallb_forall in X. specialize (X a A). rewrite forallb_forall in X. specialize (X b B).
  rewrite E, Nat.eqb_refl in X. apply String.eqb_eq. exact X.
Qed.
Example ex_one : look (history (start locks0) (all_of 7)) "started" = Some (0, Some 7, Some "started", 1, true, [7]).
Proof. vm_compute. reflexivity. Qed.
Example ex_two : look (history (start locks0) (all_of 7 ++ [Assign false; Add 3] ++ all_of 8)) "logging_off"
  = Some (22, Some 8, Some "logging_off", 0, false, [8; 7]).
Proof. vm_compute. reflexivity. Qed.
Example ex_level_alone : look (history (start locks0) (all_of 7)) "level" = Some (3, Some 7, Some "level", 1, true, [7]).
Proof. vm_compute. reflexivity. Qed.
(** While the first __init__ runs, the settings that belong together have different locks. *)
Example ex_before : look (history (start locks0) (Make 7 :: repeat Go 50)) "started" = Some (2, Some 7, Some "started", 0, true, []).
Proof. vm_compute. reflexivity. Qed.

(** If a second object is made (Single_Model: the singleton can be made twice), the setting is switched off between the reading of its value
    and the action in line 259, and the filter stays at the root logger though the setting is off. *)
Theorem C81_filter_refuted : ~ forall l0 l s, history (start l0) l = Some (Ok s) -> quiet s -> ours (filters s) = if integration s then 1 else 0.
Proof.
  intros H. pose (l := all_of 7 ++ Make 8 :: repeat Go 60 ++ Assign false :: repeat Go 2).
  assert (X : match history (start locks0) l with
              | Some (Ok s) => todo s = [] /\ informed s = [8; 7] /\ ours (filters s) = 1 /\ integration s = false
              | _ => False end) by (vm_compute; auto).
  specialize (H locks0 l). destruct (history (start locks0) l) as [[s|e]|]; try contradiction.
  destruct X as (X1 & X2 & X3 & X4). specialize (H s eq_refl). rewrite X3, X4 in H. discriminate H.
  split; [exact X1 | rewrite X2; discriminate].
Qed.

Print Assumptions C81_never_raises.
Print Assumptions C81_finishes.
Print Assumptions C81_locks.
Print Assumptions C81_locks_stay.
Print Assumptions C81_points.
Print Assumptions C81_once.
Print Assumptions C81_filter.
Print Assumptions C81_never_twice.
Print Assumptions C81_filter_refuted.
