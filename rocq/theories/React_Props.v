(** Property C78: what settings do outside of the store (the filter in logging, the name in builtins), with several threads. *)
From Coq Require Import Lia.
From Verif Require Import Base Settings_Model Settings_Spec Settings_Proofs Race_Model Race_Spec Race_Proofs Race_Props Logging_Model Logging_Props React_Model.
Local Open Scope string_scope.
Local Open Scope list_scope.

(** ** Specification *)

(** The filters other people put on the root logger, one after another, polog's not counted. *)
Definition own_filters (us : list filt) (xs : list xlabel) : list filt :=
  fold_left (fun l x => match x with XAdd k => add_filter l (OtherF k) | XRemove k => remove_filter l (OtherF k) | _ => l end) xs us.
(** The calls of config. *)
Definition config_calls (xs : list xlabel) : list (nat * cop) := flat_map (fun x => match x with XCall t o => [(t, o)] | _ => [] end) xs.
Definition race_calls (xs : list label) : list (nat * cop) := flat_map (fun x => match x with LCall t o => [(t, o)] | _ => [] end) xs.
Fixpoint how_often (l : list filt) : nat := match l with [] => 0 | PologF :: r => S (how_often r) | OtherF _ :: r => how_often r end.

(** ** Filters *)
Lemma how_often_count : forall l, how_often l = polog_count l.
Proof. unfold polog_count; induction l as [|[|k] l IH]; cbn; [reflexivity|rewrite IH; reflexivity|exact IH]. Qed.
Lemma how_often_In : forall l, In PologF l <-> how_often l <> 0.
Proof. induction l as [|[|k] l IH]; cbn; [tauto|split; [discriminate|left; reflexivity]|]. rewrite <- IH. split; [intros [H|H]; [discriminate H|exact H]|intros H; right; exact H]. Qed.
Lemma how_often_app : forall a b, how_often (a ++ b) = how_often a + how_often b.
Proof. induction a as [|[|k] a IH]; intros b; cbn; [reflexivity|rewrite IH; reflexivity|apply IH]. Qed.
Lemma existsb_polog : forall l, existsb (filt_eqb PologF) l = negb (Nat.eqb (how_often l) 0).
Proof. induction l as [|[|k] l IH]; cbn; auto. Qed.
Lemma action_often : forall l b, how_often l <= 1 -> how_often (action l b) = (if b then 1 else 0).
Proof.
  intros l b H; unfold action, add_filter, remove_filter; rewrite existsb_polog; destruct b.
  - destruct (Nat.eqb_spec (how_often l) 0) as [E|E]; cbn [negb]; [rewrite how_often_app, E; reflexivity|lia].
  - destruct (Nat.eqb_spec (how_often l) 0) as [E|E]; cbn [negb]; [exact E|].
    destruct (remove_first_spec l) as (_ & R). rewrite <- !how_often_count, existsb_polog in R. destruct (Nat.eqb_spec (how_often l) 0); [contradiction|]. specialize (R eq_refl); lia.
Qed.
Lemma action_others : forall l b, filter is_other (action l b) = filter is_other l.
Proof.
  intros l b; unfold action, add_filter, remove_filter; destruct b, (existsb (filt_eqb PologF) l); try reflexivity.
  - rewrite filter_app; cbn; apply app_nil_r.
  - apply remove_first_spec.
Qed.
Lemma others_exists : forall l k, existsb (filt_eqb (OtherF k)) (filter is_other l) = existsb (filt_eqb (OtherF k)) l.
Proof. induction l as [|[|n] l IH]; intros k; cbn; [reflexivity|apply IH|rewrite IH; reflexivity]. Qed.
Lemma add_other : forall l k, how_often (add_filter l (OtherF k)) = how_often l /\ filter is_other (add_filter l (OtherF k)) = add_filter (filter is_other l) (OtherF k).
Proof.
  intros l k; unfold add_filter; rewrite others_exists; destruct (existsb (filt_eqb (OtherF k)) l); [split; reflexivity|].
  split; [rewrite how_often_app; cbn; lia|rewrite filter_app; reflexivity].
Qed.
Lemma remove_other : forall l k, how_often (remove_filter l (OtherF k)) = how_often l /\ filter is_other (remove_filter l (OtherF k)) = remove_filter (filter is_other l) (OtherF k).
Proof.
  intros l k; unfold remove_filter; rewrite others_exists; destruct (existsb (filt_eqb (OtherF k)) l); [|split; reflexivity].
  induction l as [|[|n] l (IH1 & IH2)]; cbn; [split; reflexivity|split; [rewrite IH1; reflexivity|exact IH2]|].
  destruct (Nat.eqb k n); [split; reflexivity|]. cbn; split; [exact IH1|rewrite IH2; reflexivity].
Qed.

Section Props.
  Variable isident : string -> bool.
  Variable class_or_callable : nat -> bool.
  Variable is_module : nat -> bool.
  Variable has_loads has_dumps loads_callable dumps_callable : nat -> bool.
  Variable debug : bool.
  Variable possible_level_name : string -> bool.
  Notation lockof := (lock_of isident class_or_callable is_module has_loads has_dumps loads_callable dumps_callable debug).
  Notation mv := (move isident class_or_callable is_module has_loads has_dumps loads_callable dumps_callable debug possible_level_name).
  Notation stp := (step isident class_or_callable is_module has_loads has_dumps loads_callable dumps_callable debug possible_level_name).
  Notation rn := (run isident class_or_callable is_module has_loads has_dumps loads_callable dumps_callable debug possible_level_name).
  Notation s0 := (start isident class_or_callable is_module has_loads has_dumps loads_callable dumps_callable debug).
  Notation xrn := (xrun isident class_or_callable is_module has_loads has_dumps loads_callable dumps_callable debug possible_level_name).
  Notation xstp := (xstep isident class_or_callable is_module has_loads has_dumps loads_callable dumps_callable debug possible_level_name).
  Notation xmv := (xmove isident class_or_callable is_module has_loads has_dumps loads_callable dumps_callable debug possible_level_name).
  Notation x0 := (xstart isident class_or_callable is_module has_loads has_dumps loads_callable dumps_callable debug).
  Notation jl := (json_like is_module has_loads has_dumps loads_callable dumps_callable).
  (** The default json module is the json module of the standard library. *)
  Hypothesis json_default : jl json_obj = true.
  Notation inv := (Inv_run isident class_or_callable is_module has_loads has_dumps loads_callable dumps_callable debug possible_level_name json_default).
  Notation cons := (C73_consistent isident class_or_callable is_module has_loads has_dumps loads_callable dumps_callable debug possible_level_name json_default).
  Notation I_ := "integration_with_logging".
  Notation B_ := "log_is_built_in".
  Notation O_ := "logging_off".

  (** ** The moves of Race_Model *)
  Definition stores (b : st) (u : nat) (n : string) (w : pyval) : Prop := exists v l, pcs b u = Conf n v w [] l.
  Lemma move_cases : forall b u b', mv b u = Some b' ->
    (forall t, t <> u -> pcs b' t = pcs b t) /\
    ((exists n v w l, pcs b u = Conf n v w [] l /\ pcs b' u = Chg n v l /\ forall m, val (conf b') m = if String.eqb m n then w else val (conf b) m) \/
     ((forall n v w l, pcs b u <> Conf n v w [] l) /\ forall m, val (conf b') m = val (conf b) m)).
  Proof.
    intros b u b' E; unfold move in E.
    destruct (pcs b u) as [|[|[n v|k n v] l]|n v l|n v l|n v l|n v w [|[m f] cf] l|n v l|n v l|n v e|k n v l] eqn:P;
      repeat match type of E with context [match ?x with _ => _ end] => destruct x eqn:? end; try discriminate E; injection E as <-; cbn [pcs conf];
      (split; [intros t N; apply upd_other; exact N|]);
      try (right; split; [intros; discriminate|reflexivity]).
    left; exists n, v, w, l; split; [reflexivity|split; [apply upd_same|]]. intros m; apply val_dset.
  Qed.
  Lemma call_frame : forall b t o b', stp b (LCall t o) = Some b' -> conf b' = conf b /\ pcs b t = Idle /\ forall u, u <> t -> pcs b' u = pcs b u.
  Proof.
    intros b t o b' E; cbn [step] in E; destruct (pcs b t); try discriminate E; injection E as <-; cbn; split; [reflexivity|split; [reflexivity|]].
    intros u N; apply upd_other; exact N.
  Qed.
  Lemma locks_IO : lockof O_ = lockof I_.
  Proof. rewrite !lock_of_eq; reflexivity. Qed.

  Definition reached (b : st) : Prop := exists ys, rn s0 ys = Some b.
  Lemma holders : forall b, reached b -> locking isident class_or_callable is_module has_loads has_dumps loads_callable dumps_callable debug (held b) (pcs b).
  Proof. intros b (ys & E); exact (iv_lock _ _ _ _ _ _ _ _ _ _ _ (inv ys b E)). Qed.
  Lemma flag_value : forall b n, reached b -> In n flags -> exists x, val (conf b) n = VBool x /\ cfg_get (conf b) n = Ok (VBool x).
  Proof.
    intros b n (ys & E) F; destruct (cons ys b E) as (A & _ & _). destruct (A n) as (v & G & L & _).
    { apply in_or_app; right; apply in_or_app; right; exact F. }
    destruct L as (_ & _ & _ & L & _); specialize (L F). unfold boolean in L. destruct L as (x & ->); exists x; split; [|exact G].
    unfold cfg_get in G; unfold val; destruct (dget String.eqb (vals (conf b)) n) as [w|]; [injection G as ->; reflexivity|discriminate G].
  Qed.
  Lemma off_false : forall b, reached b -> val (conf b) I_ = VBool false -> val (conf b) O_ = VBool false.
  Proof.
    intros b R V; destruct (flag_value b I_ R) as (x & V1 & G1); [cbn; tauto|]. destruct (flag_value b O_ R) as (y & V2 & G2); [cbn; tauto|].
    destruct R as (ys & E); destruct (cons ys b E) as (_ & _ & C). rewrite V in V1; injection V1 as <-. specialize (C G1). rewrite V2; congruence.
  Qed.
  Lemma reached_step : forall b x b', reached b -> stp b x = Some b' -> reached b'.
  Proof.
    intros b x b' (ys & E) S; exists (ys ++ [x]). revert E; generalize s0. induction ys as [|y ys IH]; intros s E; cbn [run app] in *.
    - injection E as ->; rewrite S; reflexivity.
    - destruct (stp s y); [apply IH; exact E|discriminate E].
  Qed.

  (** ** Invariant *)
  Definition eff (s : xst) (n : string) : bool :=
    if String.eqb n I_ then negb (Nat.eqb (how_often (filters s)) 0) else match named s with Some _ => true | None => false end.
  Definition watched (n : string) : Prop := n = I_ \/ n = B_.
  Record XI (s : xst) : Prop := {
    xi_base : reached (base s);
    xi_todo : forall t n o w, todo s t = Some (n, o, w) -> (exists v l, pcs (base s) t = Chg n v l) /\ val (conf (base s)) n = w;
    xi_off : forall t w, todo s t = Some (I_, VBool false, w) -> val (conf (base s)) O_ = VBool false;
    xi_rest : forall n, watched n -> (forall t o w, todo s t <> Some (n, o, w)) -> val (conf (base s)) n = VBool (eff s n);
    xi_due : forall n t o w, watched n -> todo s t = Some (n, o, w) -> o = VBool (eff s n);
    xi_once : how_often (filters s) <= 1;
    xi_named : named s = Some 0 \/ named s = None
  }.
  Lemma classic_watched : forall n, watched n \/ ~ watched n.
  Proof. intros n; unfold watched; destruct (string_dec n I_), (string_dec n B_); tauto. Qed.
  Lemma watched_flag : forall n, watched n -> In n flags.
  Proof. intros n [-> | ->]; cbn; tauto. Qed.

  Lemma one_due : forall s t u n m o w o' w', XI s -> todo s t = Some (n, o, w) -> todo s u = Some (m, o', w') -> lockof n = lockof m -> t = u.
  Proof.
    intros s t u n m o w o' w' X A B K. destruct (proj1 (xi_todo s X _ _ _ _ A)) as (v & l & P). destruct (proj1 (xi_todo s X _ _ _ _ B)) as (v' & l' & P').
    apply (lk_one _ _ _ _ _ _ _ _ _ _ (holders _ (xi_base s X)) t u n m); [rewrite P|rewrite P'|exact K]; reflexivity.
  Qed.
  Lemma due_stores : forall s t u n m o w v w' l, XI s -> todo s t = Some (n, o, w) -> pcs (base s) u = Conf m v w' [] l -> lockof n = lockof m -> t = u.
  Proof.
    intros s t u n m o w v w' l X A B K. destruct (proj1 (xi_todo s X _ _ _ _ A)) as (v1 & l1 & P).
    apply (lk_one _ _ _ _ _ _ _ _ _ _ (holders _ (xi_base s X)) t u n m); [rewrite P|rewrite B|exact K]; reflexivity.
  Qed.

  Lemma eff_act : forall s n o w, XI s -> watched n -> o = VBool (eff s n) -> (exists x, w = VBool x) ->
    let s' := mkX (base s) (todo s) (act_filters n o w (filters s)) (act_named n o w (named s)) in
    VBool (eff s' n) = w /\ (forall m, watched m -> m <> n -> eff s' m = eff s m) /\ how_often (filters s') <= 1 /\ (named s' = Some 0 \/ named s' = None).
  Proof.
    intros s n o w X [-> | ->] -> (x & ->); cbn [filters named]; unfold act_filters, act_named, differ;
      change (String.eqb I_ I_) with true; change (String.eqb B_ B_) with true; change (String.eqb I_ B_) with false; change (String.eqb B_ I_) with false; cbv iota;
      pose proof (xi_once s X) as H1; pose proof (xi_named s X) as H2.
    - split; [|split; [|split]].
      + unfold eff; cbn [filters]; change (String.eqb I_ I_) with true; cbv iota.
        destruct (negb (Nat.eqb (how_often (filters s)) 0)) eqn:E, x; cbn [Bool.eqb negb]; cbn [truthy]; rewrite ?action_often, ?E by exact H1; reflexivity.
      + intros m [-> | ->] N; [contradiction|]. unfold eff; change (String.eqb B_ I_) with false; cbv iota; cbn [named].
        destruct (negb _); reflexivity.
      + destruct (negb (Bool.eqb _ _)); [|exact H1]. cbn [truthy]; rewrite action_often by exact H1; destruct x; lia.
      + destruct (negb (Bool.eqb _ _)); exact H2.
    - split; [|split; [|split]].
      + unfold eff; cbn [named]; change (String.eqb B_ I_) with false; cbv iota.
        destruct (named s) as [k|] eqn:E, x; cbn [Bool.eqb negb eq_true]; rewrite ?E; reflexivity.
      + intros m [-> | ->] N; [|contradiction]. unfold eff; change (String.eqb I_ I_) with true; cbv iota; cbn [filters].
        destruct (negb (Bool.eqb _ x)); reflexivity.
      + destruct (negb (Bool.eqb _ x)); exact H1.
      + destruct (negb (Bool.eqb _ x)); [cbn [eq_true]; destruct x; auto|exact H2].
  Qed.

  Lemma XI_step : forall s x s', XI s -> xstp s x = Some s' -> XI s'.
  Proof.
    intros s x s' X E; destruct x as [t o|u|k|k]; cbn [xstep] in E.
    - destruct (stp (base s) (LCall t o)) as [b|] eqn:S; [|discriminate E]; injection E as <-.
      destruct (call_frame _ _ _ _ S) as (C & P & F). destruct X as [X1 X2 X3 X4 X5 X6 X7].
      constructor; cbn [base todo filters named]; rewrite ?C; try assumption.
      + apply (reached_step _ _ _ X1 S).
      + intros u n o' w T. destruct (X2 _ _ _ _ T) as ((v & l & Q) & V). split; [|exact V]. exists v, l. rewrite F; [exact Q|]. intros ->; congruence.
    - unfold xmove in E. destruct (todo s u) as [[[n o] w]|] eqn:T.
      + injection E as <-. pose proof (xi_todo s X _ _ _ _ T) as (_ & V). pose proof (xi_base s X) as RB.
        assert (OTHER : forall t m o' w', upd (todo s) u None t = Some (m, o', w') -> t <> u /\ todo s t = Some (m, o', w')).
        { intros t m o' w' H; unfold upd in H; destruct (Nat.eqb_spec t u); [discriminate H|split; assumption]. }
        assert (DIFF : forall t m o' w', upd (todo s) u None t = Some (m, o', w') -> m <> n).
        { intros t m o' w' H ->; apply OTHER in H; destruct H as (N & H); apply N; apply (one_due s t u n n o' w' o w X H T eq_refl). }
        destruct (classic_watched n) as [Wn|Wn].
        * destruct (eff_act s n o w X Wn (xi_due s X n u o w Wn T)) as (A1 & A2 & A3 & A4).
          { rewrite <- V. destruct (flag_value (base s) n RB (watched_flag n Wn)) as (x & -> & _); exists x; reflexivity. }
          constructor; cbn [base todo filters named] in *; try assumption.
          -- intros t m o' w' H; apply OTHER in H; destruct H as (_ & H); apply (xi_todo s X _ _ _ _ H).
          -- intros t w' H; apply OTHER in H; destruct H as (_ & H); apply (xi_off s X _ _ H).
          -- intros m Wm R. destruct (string_dec m n) as [->|N]; [rewrite V; symmetry; exact A1|].
             unfold eff in A2 |- *; cbn [filters named] in A2 |- *. rewrite (A2 m Wm N). apply (xi_rest s X m Wm).
             intros t o' w' H. apply (R t o' w'). unfold upd. destruct (Nat.eqb_spec t u) as [->|]; [congruence|exact H].
          -- intros m t o' w' Wm H. pose proof (DIFF _ _ _ _ H) as N. apply OTHER in H; destruct H as (_ & H).
             unfold eff in A2 |- *; cbn [filters named] in A2 |- *. rewrite (A2 m Wm N). apply (xi_due s X m t o' w' Wm H).
        * assert (FA : act_filters n o w (filters s) = filters s).
          { unfold act_filters. destruct (differ o w); [|reflexivity]. destruct (String.eqb_spec n I_) as [->|]; [exfalso; apply Wn; left; reflexivity|reflexivity]. }
          assert (NA : act_named n o w (named s) = named s).
          { unfold act_named. destruct (differ o w); [|reflexivity]. destruct (String.eqb_spec n B_) as [->|]; [exfalso; apply Wn; right; reflexivity|reflexivity]. }
          rewrite FA, NA. destruct X as [X1 X2 X3 X4 X5 X6 X7]. constructor; cbn [base todo filters named]; try assumption.
          -- intros t m o' w' H; apply OTHER in H; destruct H as (_ & H); apply (X2 _ _ _ _ H).
          -- intros t w' H; apply OTHER in H; destruct H as (_ & H); apply (X3 _ _ H).
          -- intros m Wm R. apply (X4 m Wm). intros t o' w' H. apply (R t o' w'). unfold upd. destruct (Nat.eqb_spec t u) as [->|]; [|exact H].
             rewrite T in H; injection H as -> _ _; contradiction.
          -- intros m t o' w' Wm H. apply OTHER in H; destruct H as (_ & H). apply (X5 m t o' w' Wm H).
      + destruct (mv (base s) u) as [b|] eqn:M; [|discriminate E]; injection E as <-.
        pose proof (reached_step (base s) (LMove u) b (xi_base s X) M) as RB'. destruct (move_cases _ _ _ M) as (F & [(n & v & w & l & P & P' & V)|(NP & V)]).
        * rewrite P.
          assert (NONE : forall t m o' w', lockof m = lockof n -> todo s t <> Some (m, o', w')).
          { intros t m o' w' K H. assert (t = u) as -> by (apply (due_stores s t u m n o' w' v w l X H P K)). congruence. }
          assert (CASE : forall t m o' w', upd (todo s) u (Some (n, val (conf (base s)) n, w)) t = Some (m, o', w') ->
            (t = u /\ m = n /\ o' = val (conf (base s)) n /\ w' = w) \/ (t <> u /\ todo s t = Some (m, o', w') /\ lockof m <> lockof n)).
          { intros t m o' w' H; unfold upd in H; destruct (Nat.eqb_spec t u) as [->|N]; [injection H as <- <- <-; left; auto|right].
            split; [exact N|split; [exact H|]]. intros K; exact (NONE _ _ _ _ K H). }
          constructor; cbn [base todo filters named]; try apply X.
          -- exact RB'.
          -- intros t m o' w' H; apply CASE in H. destruct H as [(-> & -> & -> & ->)|(N & H & K)].
             ++ split; [exists v, l; exact P'|]. rewrite V, String.eqb_refl; reflexivity.
             ++ destruct (xi_todo s X _ _ _ _ H) as ((v' & l' & Q) & W). split; [exists v', l'; rewrite F; assumption|].
                rewrite V. destruct (String.eqb_spec m n) as [->|]; [contradiction|exact W].
          -- intros t w' H; apply CASE in H. destruct H as [(-> & <- & Q & ->)|(N & H & K)].
             ++ rewrite V. change (String.eqb O_ I_) with false; cbv iota. apply off_false; [apply X|symmetry; exact Q].
             ++ rewrite V. destruct (String.eqb_spec O_ n) as [<-|]; [rewrite locks_IO in K; contradiction|]. apply (xi_off s X _ _ H).
          -- intros m Wm R. destruct (string_dec m n) as [->|N]; [exfalso; apply (R u (val (conf (base s)) n) w); unfold upd; rewrite Nat.eqb_refl; reflexivity|].
             rewrite V. destruct (String.eqb_spec m n) as [->|]; [contradiction|]. apply (xi_rest s X m Wm).
             intros t o' w' H. apply (R t o' w'). unfold upd. destruct (Nat.eqb_spec t u) as [->|]; [congruence|exact H].
          -- intros m t o' w' Wm H; apply CASE in H. destruct H as [(-> & -> & -> & ->)|(N & H & K)].
             ++ apply (xi_rest s X n Wm). intros t o' w'; apply NONE; reflexivity.
             ++ apply (xi_due s X m t o' w' Wm H).
        * assert (Z : match pcs (base s) u with Conf n _ w [] _ => Some (n, val (conf (base s)) n, w) | _ => None end = None).
          { destruct (pcs (base s) u) as [|l|n v l|n v l|n v l|n v w [|c cf] l|n v l|n v l|n v e|k n v l]; try reflexivity. exfalso; eapply NP; reflexivity. }
          rewrite Z.
          assert (SAME : forall t, upd (todo s) u None t = todo s t) by (intros t; unfold upd; destruct (Nat.eqb_spec t u) as [->|]; congruence).
          constructor; cbn [base todo filters named]; try apply X.
          -- exact RB'.
          -- intros t m o' w' H; rewrite SAME in H. destruct (xi_todo s X _ _ _ _ H) as ((v' & l' & Q) & W). split; [|rewrite V; exact W].
             exists v', l'. rewrite F; [exact Q|]. intros ->; congruence.
          -- intros t w' H; rewrite SAME in H; rewrite V; apply (xi_off s X _ _ H).
          -- intros m Wm R; rewrite V. apply (xi_rest s X m Wm). intros t o' w' H; apply (R t o' w'); rewrite SAME; exact H.
          -- intros m t o' w' Wm H; rewrite SAME in H; apply (xi_due s X m t o' w' Wm H).
    - injection E as <-. destruct (add_other (filters s) k) as (H & _). destruct X as [X1 X2 X3 X4 X5 X6 X7].
      constructor; unfold eff in *; cbn [base todo filters named] in *; rewrite ?H; assumption.
    - injection E as <-. destruct (remove_other (filters s) k) as (H & _). destruct X as [X1 X2 X3 X4 X5 X6 X7].
      constructor; unfold eff in *; cbn [base todo filters named] in *; rewrite ?H; assumption.
  Qed.

  Lemma XI_start : forall us, filter is_other us = us -> XI (x0 us).
  Proof.
    intros us U. assert (Z : how_often us = 0).
    { rewrite <- U. clear. induction us as [|[|k] us IH]; cbn; auto. }
    assert (F : filters (x0 us) = us ++ [PologF]).
    { unfold xstart; cbn [filters]. unfold act_filters. change (val (conf s0) I_) with (VBool true). cbn [differ truthy]. change (String.eqb I_ I_) with true. cbv iota.
      unfold action, add_filter. rewrite existsb_polog, Z. reflexivity. }
    assert (H : how_often (filters (x0 us)) = 1) by (rewrite F, how_often_app, Z; reflexivity).
    constructor; try (intros; discriminate).
    - exists []; reflexivity.
    - intros n [-> | ->] _; unfold eff; [rewrite H; reflexivity|reflexivity].
    - rewrite H; lia.
    - right; reflexivity.
  Qed.
  Lemma XI_run : forall us xs s, filter is_other us = us -> xrn (x0 us) xs = Some s -> XI s.
  Proof.
    intros us xs s U. pose proof (XI_start us U) as X. revert X. generalize (x0 us). induction xs as [|x xs IH]; intros a X E; cbn [xrun] in E; [injection E as <-; exact X|].
    destruct (xstp a x) as [b|] eqn:S; [|discriminate E]. apply (IH b); [apply (XI_step _ _ _ X S)|exact E].
  Qed.
  Lemma nobody_due : forall s n, XI s -> held (base s) (lockof n) = false -> forall t o w, todo s t <> Some (n, o, w).
  Proof.
    intros s n X H t o w T. destruct (proj1 (xi_todo s X _ _ _ _ T)) as (v & l & P).
    pose proof (lk_held _ _ _ _ _ _ _ _ _ _ (holders _ (xi_base s X)) t n) as K. rewrite P in K. specialize (K eq_refl). congruence.
  Qed.

  (** ** Theorems *)
  Variable us : list filt.
  Hypothesis others_only : ~ In PologF us.
  Lemma us_others : filter is_other us = us.
  Proof using others_only. clear json_default. induction us as [|[|k] r IH]; cbn; [reflexivity|elim others_only; left; reflexivity|rewrite IH; [reflexivity|intros H; apply others_only; right; exact H]]. Qed.

  (** The actions change nothing about the settings: what the settings go through is what they go through without actions, for the same calls. *)
  Theorem C78_same_settings : forall xs s, xrn (x0 us) xs = Some s -> exists ys, rn s0 ys = Some (base s) /\ race_calls ys = config_calls xs.
  Proof using.
    clear. intros xs s.
    assert (G : forall xs a s zs, rn s0 zs = Some (base a) -> xrn a xs = Some s -> exists ys, rn s0 (zs ++ ys) = Some (base s) /\ race_calls ys = config_calls xs).
    { clear. induction xs as [|x xs IH]; intros a s zs Z E; cbn [xrun] in E.
      - injection E as <-; exists []; rewrite app_nil_r; split; [exact Z|reflexivity].
      - destruct (xstp a x) as [b|] eqn:S; [|discriminate E].
        assert (ONE : (exists y, stp (base a) y = Some (base b) /\ race_calls [y] = config_calls [x]) \/ (base b = base a /\ config_calls [x] = [])).
        { destruct x as [t o|u|k|k]; cbn [xstep] in S.
          - destruct (stp (base a) (LCall t o)) as [c|] eqn:Q; [|discriminate S]; injection S as <-. left; exists (LCall t o); split; [exact Q|reflexivity].
          - unfold xmove in S. destruct (todo a u) as [[[n o] w]|]; [injection S as <-; right; split; reflexivity|].
            destruct (mv (base a) u) as [c|] eqn:Q; [|discriminate S]; injection S as <-. left; exists (LMove u); split; [exact Q|reflexivity].
          - injection S as <-; right; split; reflexivity.
          - injection S as <-; right; split; reflexivity. }
        assert (RA : forall zs y s1 s2 s3, rn s1 zs = Some s2 -> stp s2 y = Some s3 -> rn s1 (zs ++ [y]) = Some s3).
        { clear. induction zs as [|z zs IH]; intros y s1 s2 s3 A B; cbn [run app] in *; [injection A as ->; rewrite B; reflexivity|].
          destruct (stp s1 z); [apply (IH _ _ _ _ A B)|discriminate A]. }
        change (config_calls (x :: xs)) with (config_calls ([x] ++ xs)). unfold config_calls; rewrite flat_map_app; fold (config_calls [x]); fold (config_calls xs).
        destruct ONE as [(y & Q & C)|(Q & C)].
        + destruct (IH b s (zs ++ [y])) as (ys & R & D); [apply (RA _ _ _ _ _ Z Q)|exact E|]. exists (y :: ys). split; [rewrite <- app_assoc in R; exact R|].
          change (race_calls (y :: ys)) with (race_calls ([y] ++ ys)). unfold race_calls; rewrite flat_map_app; fold (race_calls [y]); fold (race_calls ys). congruence.
        + destruct (IH b s zs) as (ys & R & D); [rewrite Q; exact Z|exact E|]. exists ys. split; [exact R|]. rewrite C. exact D. }
    intros E. apply (G xs (x0 us) s [] eq_refl E).
  Qed.

  (** As soon as nobody is in the middle of assigning it, a setting and what it does outside agree. *)
  Theorem C78_at_rest : forall xs s, xrn (x0 us) xs = Some s ->
    (held (base s) (lockof "integration_with_logging") = false ->
       exists b, cfg_get (conf (base s)) "integration_with_logging" = Ok (VBool b) /\ how_often (filters s) = if b then 1 else 0) /\
    (held (base s) (lockof "log_is_built_in") = false ->
       exists b, cfg_get (conf (base s)) "log_is_built_in" = Ok (VBool b) /\ named s = if b then Some 0 else None).
  Proof using json_default others_only.
    intros xs s E. pose proof (XI_run us xs s us_others E) as X. split; intros H.
    - destruct (flag_value (base s) I_ (xi_base s X)) as (x & V & G); [cbn; tauto|]. exists x; split; [exact G|].
      pose proof (xi_rest s X I_ (or_introl eq_refl) (nobody_due s I_ X H)) as Q. rewrite V in Q. unfold eff in Q. change (String.eqb I_ I_) with true in Q; cbv iota in Q. injection Q as Q.
      pose proof (xi_once s X). destruct (Nat.eqb_spec (how_often (filters s)) 0); cbn [negb] in Q; subst x; lia.
    - destruct (flag_value (base s) B_ (xi_base s X)) as (x & V & G); [cbn; tauto|]. exists x; split; [exact G|].
      pose proof (xi_rest s X B_ (or_intror eq_refl) (nobody_due s B_ X H)) as Q. rewrite V in Q. unfold eff in Q. change (String.eqb B_ I_) with false in Q; cbv iota in Q. injection Q as Q.
      destruct (xi_named s X) as [N|N]; rewrite N in Q |- *; subst x; reflexivity.
  Qed.

  (** At every moment: polog's filter is there at most once; all the others are as their owners put them, in their order; and while logging is off, polog's filter is there. *)
  Theorem C78_always : forall xs s, xrn (x0 us) xs = Some s ->
    how_often (filters s) <= 1 /\ filter is_other (filters s) = own_filters us xs /\ (named s = Some 0 \/ named s = None) /\
    (cfg_get (conf (base s)) "logging_off" = Ok (VBool true) -> In PologF (filters s)).
  Proof using json_default others_only.
    intros xs s E. pose proof (XI_run us xs s us_others E) as X. split; [apply X|split; [|split; [apply X|]]].
    - assert (G : forall xs a s, xrn a xs = Some s -> filter is_other (filters s) = own_filters (filter is_other (filters a)) xs).
      { clear. induction xs as [|x xs IH]; intros a s E; cbn [xrun] in E; [injection E as <-; reflexivity|].
        destruct (xstp a x) as [b|] eqn:S; [|discriminate E]. rewrite (IH b s E). unfold own_filters; cbn [fold_left]. f_equal.
        destruct x as [t o|u|k|k]; cbn [xstep] in S.
        - destruct (stp (base a) (LCall t o)); [|discriminate S]; injection S as <-; reflexivity.
        - unfold xmove in S. destruct (todo a u) as [[[n o] w]|].
          + injection S as <-. cbn [filters]. unfold act_filters. destruct (differ o w); [|reflexivity]. destruct (String.eqb n I_); [apply action_others|reflexivity].
          + destruct (mv (base a) u); [|discriminate S]; injection S as <-; reflexivity.
        - injection S as <-; apply add_other.
        - injection S as <-; apply remove_other. }
      rewrite (G xs (x0 us) s E). f_equal. unfold xstart; cbn [filters]. unfold act_filters. destruct (differ _ _); [|exact us_others].
      change (String.eqb I_ I_) with true; cbv iota. rewrite action_others. exact us_others.
    - intros O. apply how_often_In. destruct (flag_value (base s) O_ (xi_base s X)) as (x & V & G); [cbn; tauto|]. rewrite G in O; injection O as ->.
      destruct (flag_value (base s) I_ (xi_base s X)) as (y & VI & _); [cbn; tauto|].
      assert (Y : y = true) by (destruct y; [reflexivity|]; rewrite (off_false (base s) (xi_base s X) VI) in V; discriminate V). subst y.
      intros Z. assert (EI : eff s I_ = false) by (unfold eff; change (String.eqb I_ I_) with true; cbv iota; rewrite Z; reflexivity).
      assert (D : forall t o w, todo s t <> Some (I_, o, w)).
      { intros t o w T. pose proof (xi_due s X I_ t o w (or_introl eq_refl) T) as Q. rewrite EI in Q. subst o. rewrite (xi_off s X _ _ T) in V; discriminate V. }
      pose proof (xi_rest s X I_ (or_introl eq_refl) D) as Q. rewrite VI, EI in Q. discriminate Q.
  Qed.

  (** So a record of the root logger that the filters before polog's let through does not go to the handlers of logging while logging is off: polog handles it. *)
  Theorem C78_logging_off : forall xs s c w unl says own r, xrn (x0 us) xs = Some s -> cfg_get (conf (base s)) "logging_off" = Ok (VBool true) ->
    (forall k, says k = true) -> sound r -> (0 <= levelno r)%Z ->
    exists f, (forall k, Handle_Model.fget f k = expected isident c r k) /\
      emit isident c w unl true says (filters s) own true r = (if (Handle_Model.c_level c <=? levelno r)%Z && negb unl then [f] else [], Ok false).
  Proof using json_default others_only.
    intros xs s c w unl says own r E O SY SR L. destruct (C78_always xs s E) as (ON & _ & _ & K). specialize (K O).
    apply in_split in K. destruct K as (be & af & K). rewrite K in ON |- *. rewrite how_often_app in ON; cbn [how_often] in ON.
    assert (NB : ~ In PologF be) by (intros H; apply how_often_In in H; lia). assert (NA : ~ In PologF af) by (intros H; apply how_often_In in H; lia).
    destruct (C50_record isident c w unl true says own be af r) as (f & G & _ & Q); [|exact NA|exact SR|exact L|].
    - apply Forall_forall. intros [|k] H; [contradiction|]. exists k; split; [reflexivity|apply SY].
    - exists f. split; [exact G|exact Q].
  Qed.

  (** Nobody waits for good: while a thread is at work, some thread can go on. *)
  Theorem C78_never_stuck : forall xs s, xrn (x0 us) xs = Some s -> (exists t, pcs (base s) t <> Idle) -> exists t s', xmv s t = Some s'.
  Proof using json_default others_only.
    intros xs s E B. pose proof (XI_run us xs s us_others E) as X. destruct (xi_base s X) as (ys & R).
    destruct (C73_never_stuck isident class_or_callable is_module has_loads has_dumps loads_callable dumps_callable debug possible_level_name json_default ys (base s) R B) as (t & b & M).
    exists t. unfold xmove. destruct (todo s t) as [[[n o] w]|]; [eexists; reflexivity|]. rewrite M. eexists; reflexivity.
  Qed.
End Props.

(** ** Concrete cases *)
Definition xrun0 := xrun okname tr tr tr tr tr tr true okname.
Definition xgo (t n : nat) : list xlabel := repeat (XMove t) n.
Definition seen (s : xst) := (filters s, named s, cfg_get (conf (base s)) "integration_with_logging", cfg_get (conf (base s)) "logging_off", map snd (hist (base s))).
(** Two threads, one turns the integration off (after logging_off), the other on again and makes log a built-in name; someone has a filter of their own. *)
Example ex_react : option_map seen (xrun0 (xstart okname tr tr tr tr tr tr true [OtherF 4])
    ([XCall 1 (CSet [("logging_off", VBool false); ("integration_with_logging", VBool false)]); XAdd 5; XCall 2 (CSet [("log_is_built_in", VBool true); ("integration_with_logging", VBool true)])]
     ++ xgo 1 9 ++ xgo 2 9 ++ xgo 1 9 ++ [XRemove 4] ++ xgo 2 8 ++ xgo 1 1 ++ xgo 2 1))
  = Some ([OtherF 5; PologF], Some 0, Ok (VBool true), Ok (VBool false), [Ok tt; Ok tt; Ok tt; Ok tt]).
Proof. vm_compute; reflexivity. Qed.

(** "Whoever reads that the integration is on can rely on the filter" fails: the value is stored before the action is run, and reading does not wait. *)
Theorem C78_reading_tells_refuted : exists xs s, xrun0 (xstart okname tr tr tr tr tr tr true []) xs = Some s /\
  cread (base s) "integration_with_logging" = Some (Ok (VBool true)) /\ ~ In PologF (filters s).
Proof.
  exists (XCall 1 (CSet [("logging_off", VBool false); ("integration_with_logging", VBool false); ("integration_with_logging", VBool true)]) :: xgo 1 24).
  eexists; split; [vm_compute; reflexivity|]. split; [vm_compute; reflexivity|]. cbn; tauto.
Qed.
(** "Turning the integration off and on again changes nothing" fails: polog's filter is then asked after the others, and one of them may hide the record from it. *)
Theorem C78_off_and_on_refuted : exists xs s, xrun0 (xstart okname tr tr tr tr tr tr true []) xs = Some s /\ (forall t, pcs (base s) t = Idle) /\
  Forall (fun x => snd x = Ok tt) (hist (base s)) /\ cfg_get (conf (base s)) "integration_with_logging" = Ok (VBool true) /\ filters s = [OtherF 3; PologF] /\
  option_map filters (xrun0 (xstart okname tr tr tr tr tr tr true []) [XAdd 3]) = Some [PologF; OtherF 3].
Proof.
  exists (XAdd 3 :: XCall 1 (CSet [("logging_off", VBool false); ("integration_with_logging", VBool false); ("integration_with_logging", VBool true)]) :: xgo 1 28).
  eexists; split; [vm_compute; reflexivity|]. split; [intros [|[|t]]; reflexivity|]. split; [repeat (apply Forall_cons; [reflexivity|]); apply Forall_nil|].
  split; [vm_compute; reflexivity|split; [reflexivity|vm_compute; reflexivity]].
Qed.

Print Assumptions C78_same_settings.
Print Assumptions C78_at_rest.
Print Assumptions C78_always.
Print Assumptions C78_logging_off.
Print Assumptions C78_never_stuck.
Print Assumptions C78_reading_tells_refuted.
Print Assumptions C78_off_and_on_refuted.
