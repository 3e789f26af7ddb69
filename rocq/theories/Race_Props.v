(** Property C73: settings and level names used by several threads at once. *)
From Coq Require Import Permutation.
From Verif Require Import Base Settings_Model Settings_Spec Settings_Proofs Race_Model Race_Spec Race_Proofs.
Local Open Scope string_scope.
Local Open Scope list_scope.

Section Props.
  Variable isident : string -> bool.
  Variable class_or_callable : nat -> bool.
  Variable is_module : nat -> bool.
  Variable has_loads has_dumps loads_callable dumps_callable : nat -> bool.
  Variable debug : bool.
  Variable possible_level_name : string -> bool.
  Notation pts := (points isident class_or_callable is_module has_loads has_dumps loads_callable dumps_callable debug).
  Notation c0 := (cfg0 isident class_or_callable is_module has_loads has_dumps loads_callable dumps_callable debug).
  Notation lockof := (lock_of isident class_or_callable is_module has_loads has_dumps loads_callable dumps_callable debug).
  Notation mv := (move isident class_or_callable is_module has_loads has_dumps loads_callable dumps_callable debug possible_level_name).
  Notation stp := (step isident class_or_callable is_module has_loads has_dumps loads_callable dumps_callable debug possible_level_name).
  Notation rn := (run isident class_or_callable is_module has_loads has_dumps loads_callable dumps_callable debug possible_level_name).
  Notation s0 := (start isident class_or_callable is_module has_loads has_dumps loads_callable dumps_callable debug).
  Notation rpl := (replay isident class_or_callable is_module has_loads has_dumps loads_callable dumps_callable debug possible_level_name).
  Notation rd := (read isident class_or_callable is_module has_loads has_dumps loads_callable dumps_callable debug).
  Notation ordr := (order isident class_or_callable is_module has_loads has_dumps loads_callable dumps_callable debug possible_level_name).
  Notation jl := (json_like is_module has_loads has_dumps loads_callable dumps_callable).
  (** The default json module is the json module of the standard library. *)
  Hypothesis json_default : jl json_obj = true.
  Notation inv := (Inv_run isident class_or_callable is_module has_loads has_dumps loads_callable dumps_callable debug possible_level_name json_default).

  (** Exactly the settings of one family have one lock; and a setting is only ever compared with settings of its own family. *)
  Theorem C73_locks :
    (forall n m, lockof n = lockof m <-> together n m) /\
    (forall n p m f, dget String.eqb pts n = Some p -> In (m, f) (p_conflicts p) -> together n m).
  Proof.
    assert (forall n m, lockof n = lockof m <-> together n m) as A.
    { intros n m; rewrite !lock_of_eq; unfold together; split.
      - intros H.
        assert (forall x k, (if String.eqb x "max_queue_size" || String.eqb x "started" then "pool_size"
                             else if String.eqb x "default_error_level" then "default_level"
                             else if String.eqb x "logging_off" then "integration_with_logging" else x) = k ->
                  x = k \/ (k = "pool_size" /\ (x = "max_queue_size" \/ x = "started")) \/ (k = "default_level" /\ x = "default_error_level")
                  \/ (k = "integration_with_logging" /\ x = "logging_off")) as K.
        { intros x k Hx; destruct (String.eqb_spec x "max_queue_size"), (String.eqb_spec x "started"); cbn [orb] in Hx; try (right; left; split; [congruence|auto]; fail).
          destruct (String.eqb_spec x "default_error_level"); [right; right; left; split; congruence|].
          destruct (String.eqb_spec x "logging_off"); [right; right; right; split; congruence|left; exact Hx]. }
        pose proof (K n _ H) as Kn; pose proof (K m _ eq_refl) as Km; clear K; revert Kn Km.
        match goal with |- context [m = ?x \/ _] => generalize x end; clear H; intros k Kn Km.
        destruct Kn as [H1|[(H1 & [H1'|H1'])|[(H1 & H1')|(H1 & H1')]]]; destruct Km as [H2|[(H2 & [H2'|H2'])|[(H2 & H2')|(H2 & H2')]]]; subst; try discriminate;
          first [left; reflexivity
                |right; exists ["pool_size"; "max_queue_size"; "started"]; cbn; tauto
                |right; exists ["default_level"; "default_error_level"]; cbn; tauto
                |right; exists ["integration_with_logging"; "logging_off"]; cbn; tauto].
      - intros [->|(f & Hf & Hn & Hm)]; [reflexivity|]; unfold families in Hf.
        repeat (destruct Hf as [<-|Hf]; [cbn in Hn, Hm; repeat (destruct Hn as [<-|Hn]; [repeat (destruct Hm as [<-|Hm]; [reflexivity|]); destruct Hm|]); destruct Hn|]); destruct Hf. }
    split; [exact A|]; intros n p m f E H; apply A.
    pose proof (point_in isident class_or_callable is_module has_loads has_dumps loads_callable dumps_callable debug n p E) as Hn.
    destruct (conflict_lock isident class_or_callable is_module has_loads has_dumps loads_callable dumps_callable debug n Hn m f) as (K & _); [|symmetry; exact K].
    unfold point_of; rewrite E; exact H.
  Qed.

  (** However calls interleave, the keywords can be put into one order, extended and never rearranged as the run goes on, such that doing them one after
      another tells every thread what it was told (but for at most one keyword it is at work on, none when it is idle) and gives every setting whose lock
      is free, every number of a level name, and every guarded read. *)
  Theorem C73_serial : exists ord : list label -> list (nat * op),
    (forall xs ys, exists more, ord (xs ++ ys) = ord xs ++ more) /\
    forall xs s, rn s0 xs = Some s ->
      let g := fst (rpl c0 (ord xs)) in
      let rs := snd (rpl c0 (ord xs)) in
      (forall t, exists pend, part t rs = part t (hist s) ++ pend /\ length pend <= 1 /\ (pcs s t = Idle -> pend = [])) /\
      (forall n, held s (lockof n) = false -> cfg_get (conf s) n = cfg_get g n /\ (In n (changed (conf s)) <-> In n (changed g))) /\
      (forall n, dget String.eqb (lv (lvls (conf s))) n = dget String.eqb (lv (lvls g)) n) /\
      (forall n v, read_lock n = true -> rd s n = Some (Ok v) -> cfg_get g n = Ok v).
  Proof.
    exists (ordr s0); split; [intros xs ys; apply order_app|].
    intros xs s E; pose proof (inv xs s E) as V; cbn zeta.
    assert (forall n, held s (lockof n) = false -> cfg_get (conf s) n = cfg_get (fst (rpl c0 (ordr s0 xs))) n /\ (In n (changed (conf s)) <-> In n (changed (fst (rpl c0 (ordr s0 xs)))))) as F.
    { intros n H.
      assert (forall t, holds (pcs s t) <> Some n) as N.
      { intros t Ht; apply (lk_held _ _ _ _ _ _ _ _ _ _ (iv_lock _ _ _ _ _ _ _ _ _ _ _ V)) in Ht; congruence. }
      split.
      - destruct (iv_val _ _ _ _ _ _ _ _ _ _ _ V n) as [Hv|(t & Ht)].
        + destruct (iv_c _ _ _ _ _ _ _ _ _ _ _ V) as (ch & _ & Cc); pose proof (iv_g _ _ _ _ _ _ _ _ _ _ _ V) as Cg.
          pose proof (ci_keys _ _ _ _ _ _ _ _ _ Cc) as K1; pose proof (ci_keys _ _ _ _ _ _ _ _ _ Cg) as K2; cbn [vals] in K1.
          unfold vsame, val in Hv; unfold cfg_get.
          destruct (dget String.eqb (vals (conf s)) n) as [a|] eqn:Ea, (dget String.eqb (vals (fst (rpl c0 (ordr s0 xs)))) n) as [b|] eqn:Eb; try reflexivity; [congruence|exfalso|exfalso].
          * apply (dget_None String.eqb String.eqb_spec) in Eb; apply Eb; rewrite K2, <- K1; apply (dget_In String.eqb String.eqb_spec) in Ea; apply (in_map fst) in Ea; exact Ea.
          * apply (dget_None String.eqb String.eqb_spec) in Ea; apply Ea; rewrite K1, <- K2; apply (dget_In String.eqb String.eqb_spec) in Eb; apply (in_map fst) in Eb; exact Eb.
        + exfalso; apply (N t); destruct (pcs s t); cbn in Ht |- *; try contradiction; rewrite Ht; reflexivity.
      - destruct (iv_chg _ _ _ _ _ _ _ _ _ _ _ V n) as [Hv|(t & Ht)]; [symmetry; exact Hv|].
        exfalso; apply (N t); destruct (pcs s t); cbn in Ht |- *; destruct Ht as [Ht|Ht]; try contradiction; rewrite Ht; reflexivity. }
    split; [|split; [exact F|split]].
    - intros t; exists (tag t (pend (conf s) (pcs s t))); split; [apply (iv_p _ _ _ _ _ _ _ _ _ _ _ V)|].
      split; [|intros ->; reflexivity]; destruct (pcs s t); cbn; lia.
    - intros n; rewrite (iv_lv _ _ _ _ _ _ _ _ _ _ _ V); reflexivity.
    - intros n v Hr H; unfold read in H; destruct (dget String.eqb pts n) as [p|] eqn:En; [|discriminate H].
      rewrite Hr in H; cbn [andb] in H; destruct (held s (lockof n)) eqn:Eh; [discriminate H|]; injection H as <-.
      destruct (F n Eh) as [<- _]; destruct (iv_c _ _ _ _ _ _ _ _ _ _ _ V) as (ch & _ & Cc).
      apply (point_in isident class_or_callable is_module has_loads has_dumps loads_callable dumps_callable debug) in En.
      pose proof (val_in _ _ _ _ _ _ _ _ _ n Cc En) as Hv; unfold cfg_get, val in *; cbn [vals] in Hv; rewrite Hv; reflexivity.
  Qed.

  (** A call alone is the call of the sequential model. *)
  Theorem C73_alone : forall c o,
    in_turn isident class_or_callable is_module has_loads has_dumps loads_callable dumps_callable debug possible_level_name c (ops_of o) =
    match o with
    | CSet kw => config_set isident class_or_callable is_module has_loads has_dumps loads_callable dumps_callable debug c kw
    | CLevels kw => config_levels possible_level_name c kw
    | CStandard => (standard_levels c, Ok tt)
    end.
  Proof.
    intros c o; destruct o as [kw|kw|].
    - cbn [ops_of]; revert c; induction kw as [|[n v] kw IH]; intros c; [reflexivity|].
      cbn [map in_turn fst snd config_set]; rewrite aln_set; destruct (set_point _ _ _ _ _ _ _ _ c n v) as [c' [u|e]]; [apply IH|reflexivity].
    - cbn [ops_of]; revert c; induction kw as [|[n v] kw IH]; intros c; [reflexivity|].
      cbn [map in_turn fst snd alone config_levels].
      destruct (negb (is_int v)); [reflexivity|]; destruct (negb (ge0 v)); [reflexivity|]; destruct (negb (possible_level_name n)); [reflexivity|].
      destruct (levels_set (lvls c) (Some n) v) as [L [u|e]]; [apply IH|reflexivity].
    - destruct c as [a b d]; reflexivity.
  Qed.

  (** At every moment, with any threads in the middle of anything: every setting can be read (the guarded ones when their lock is free) and is legal, and
      the settings agree with each other. *)
  Theorem C73_consistent : forall xs s, rn s0 xs = Some s ->
    (forall n, In n (["pool_size"; "max_queue_size"; "started"; "service_name"; "max_delay_before_exit"; "time_quant";
           "delay_on_exit_loop_iteration_in_quants"; "engine"; "json_module"; "smart_assert_politic"] ++ level_settings ++ flags) ->
       exists v, cfg_get (conf s) n = Ok v /\ legal isident jl n v /\ (read_lock n = false \/ held s (lockof n) = false -> rd s n = Some (Ok v))) /\
    (forall v w, cfg_get (conf s) "pool_size" = Ok v -> cfg_get (conf s) "max_queue_size" = Ok w -> zero v -> zero w) /\
    (cfg_get (conf s) "integration_with_logging" = Ok (VBool false) -> cfg_get (conf s) "logging_off" = Ok (VBool false)).
  Proof.
    intros xs s E; destruct (iv_c _ _ _ _ _ _ _ _ _ _ _ (inv xs s E)) as (ch & _ & C).
    assert (forall m, In m (names isident class_or_callable is_module has_loads has_dumps loads_callable dumps_callable debug) ->
              cfg_get (conf s) m = Ok (val (conf s) m)) as G.
    { intros m Hm; unfold cfg_get; pose proof (val_in _ _ _ _ _ _ _ _ _ m C Hm) as H; cbn [vals] in H; rewrite H; reflexivity. }
    split; [|split].
    - intros n Hn.
      assert (In n (names isident class_or_callable is_module has_loads has_dumps loads_callable dumps_callable debug)) as Hm.
      { cbv [app level_settings flags In] in Hn; cbv [names map fst points In]; tauto. }
      exists (val (conf s) n); split; [apply G, Hm|]; split; [exact (val_legal _ _ _ _ _ _ _ _ _ n C Hm)|].
      intros H; unfold read.
      rewrite (in_point isident class_or_callable is_module has_loads has_dumps loads_callable dumps_callable debug n Hm).
      destruct H as [-> | ->]; [reflexivity|]; rewrite andb_false_r; reflexivity.
    - intros v w; rewrite !G by (apply In_existsb; reflexivity); intros H1 H2 Z; injection H1 as <-; injection H2 as <-.
      exact (ci_pool _ _ _ _ _ _ _ _ _ C Z).
    - rewrite !G by (apply In_existsb; reflexivity); intros H; injection H as H; f_equal; exact (ci_logging _ _ _ _ _ _ _ _ _ C H).
  Qed.

  (** What the threads were told is part of what the order tells. *)
  Lemma part_sub : forall h rs, (forall t, exists p, part t rs = part t h ++ p) -> exists r, Permutation rs (h ++ r).
  Proof.
    induction h as [|[[t o] r] h IH]; intros rs H; [exists rs; reflexivity|].
    assert (exists a b, rs = a ++ (t, o, r) :: b /\ part t a = []) as (a & b & -> & Ea).
    { destruct (H t) as (p & Hp); cbn [part filter fst app] in Hp; rewrite Nat.eqb_refl in Hp; cbn [app] in Hp; fold (part t h) in Hp.
      clear H; revert Hp; induction rs as [|[[u o'] r'] rs IHr]; intros Hp; [discriminate Hp|].
      cbn [part filter fst] in Hp; fold (part t rs) in Hp; destruct (Nat.eqb_spec u t) as [->|N].
      - injection Hp as -> -> _; exists [], rs; split; reflexivity.
      - destruct (IHr Hp) as (a & b & -> & Ea); exists ((u, o', r') :: a), b; split; [reflexivity|].
        cbn [part filter fst]; rewrite (proj2 (Nat.eqb_neq _ _) N); exact Ea. }
    destruct (IH (a ++ b)) as (q & Hq).
    - intros u; destruct (H u) as (p & Hp); exists p; rewrite part_app in *; cbn [part filter fst] in Hp; fold (part u b) in Hp; fold (part u h) in Hp.
      destruct (Nat.eqb_spec t u) as [->|N]; [|exact Hp].
      rewrite Ea in *; cbn [app] in *; injection Hp as Hp; exact Hp.
    - exists q; cbn [app]; rewrite <- Hq; symmetry; apply Permutation_middle.
  Qed.

  Definition started_ok (x : nat * op * Res unit) : bool :=
    match x with (_, OSet n _, Ok _) => String.eqb n "started" | _ => false end.

  Lemma rpl_started : forall h c, length (filter started_ok (snd (rpl c h))) <= 1 /\ (In "started" (changed c) -> filter started_ok (snd (rpl c h)) = []).
  Proof.
    assert (forall c o, In "started" (changed c) -> In "started" (changed (fst (alone isident class_or_callable is_module has_loads has_dumps loads_callable dumps_callable debug possible_level_name c o))) /\
       started_ok (0, o, snd (alone isident class_or_callable is_module has_loads has_dumps loads_callable dumps_callable debug possible_level_name c o)) = false) as K.
    { intros c o H; destruct o as [n v|k n v].
      - rewrite aln_set; destruct (String.eqb_spec n "started") as [->|N].
        + assert (set_point isident class_or_callable is_module has_loads has_dumps loads_callable dumps_callable debug c "started" v = (c, Err EDoubleSetting)) as ->; [|split; [exact H|reflexivity]].
          rewrite setp_eq by (apply In_existsb; reflexivity); unfold once; rewrite (proj2 (In_existsb "started" (changed c)) H); reflexivity.
        + destruct (dget String.eqb pts n) as [p|] eqn:En; [|unfold set_point; rewrite En; split; [exact H|reflexivity]].
          rewrite setp_eq by (eapply point_in; exact En).
          unfold started_ok; cbn [fst snd].
          destruct (once _ _ _ _ _ _ _ _ c n) as [u|e]; [|split; [exact H|reflexivity]].
          destruct (prove _ _ _ _ _ _ _ _ c n v) as [w|e]; [|split; [exact H|reflexivity]].
          destruct (clash _ _ _); [split; [exact H|reflexivity]|]; cbn [fst snd changed In]; split; [right; exact H|].
          apply String.eqb_neq; exact N.
      - pose proof (Half_levels isident class_or_callable is_module has_loads has_dumps loads_callable dumps_callable debug possible_level_name k n v) as L.
        destruct (reg_check possible_level_name k n v); rewrite L; split; try exact H; reflexivity. }
    induction h as [|[t o] h IH]; intros c; [split; [cbn; lia|reflexivity]|].
    cbn [replay snd filter].
    set (r := alone isident class_or_callable is_module has_loads has_dumps loads_callable dumps_callable debug possible_level_name c o) in *.
    destruct (IH (fst r)) as [A B]; split.
    - destruct (started_ok (t, o, snd r)) eqn:Eo; [|exact A].
      rewrite B; [cbn; lia|].
      destruct o as [n v|k n v]; cbn [started_ok] in Eo; [|discriminate Eo].
      destruct (snd r) as [u|e] eqn:Er; [|discriminate Eo]; apply String.eqb_eq in Eo; subst n.
      unfold r in Er |- *; rewrite aln_set in Er |- *.
      rewrite setp_eq in Er |- * by (apply In_existsb; reflexivity).
      destruct (once _ _ _ _ _ _ _ _ c "started") as [u'|e]; [|discriminate Er].
      destruct (prove _ _ _ _ _ _ _ _ c "started" v) as [w|e]; [|discriminate Er].
      destruct (clash _ _ _); [discriminate Er|]; left; reflexivity.
    - intros H; destruct (K c o H) as [K1 K2]; fold r in K1, K2.
      assert (started_ok (t, o, snd r) = false) as -> by (rewrite <- K2; reflexivity).
      apply B, K1.
  Qed.

  (** Whatever the threads do, the logger is started at most once. *)
  Theorem C73_started : forall xs s, rn s0 xs = Some s -> length (filter started_ok (hist s)) <= 1.
  Proof.
    intros xs s E; destruct (part_sub (hist s) (snd (rpl c0 (ordr s0 xs)))) as (r & P).
    - intros t; eexists; apply (iv_p _ _ _ _ _ _ _ _ _ _ _ (inv xs s E)).
    - destruct (rpl_started (ordr s0 xs) c0) as [A _].
      assert (length (filter started_ok (snd (rpl c0 (ordr s0 xs)))) = length (filter started_ok (hist s ++ r))) as Q.
      { clear -P; induction P as [|x a b _ IH|x y a|a b c _ IH1 _ IH2]; [reflexivity|cbn [filter]; destruct (started_ok x); cbn [length]; congruence| |congruence].
        cbn [filter]; destruct (started_ok x), (started_ok y); reflexivity. }
      rewrite filter_app, app_length in Q; lia.
  Qed.

  (** The threads never block each other for good. *)
  Theorem C73_never_stuck : forall xs s, rn s0 xs = Some s -> (exists t, pcs s t <> Idle) -> exists t s', mv s t = Some s'.
  Proof.
    intros xs s E (t & Ht); pose proof (iv_lock _ _ _ _ _ _ _ _ _ _ _ (inv xs s E)) as Lk.
    assert (forall u n, holds (pcs s u) = Some n -> exists s', mv s u = Some s') as Hm.
    { intros u n H; unfold move; destruct (pcs s u) as [|l|a v l|a v l|a v l|a v w [|[m f] cf] l|a v l|a v l|a v e|k a v l]; try discriminate H; try (eexists; reflexivity).
      - destruct (once _ _ _ _ _ _ _ _ (conf s) a); eexists; reflexivity.
      - destruct (prove _ _ _ _ _ _ _ _ (conf s) a v); eexists; reflexivity.
      - destruct (f w (val (conf s) m)); eexists; reflexivity. }
    destruct (pcs s t) as [|[|[n v|k n v] l]|n v l|n v l|n v l|n v w cf l|n v l|n v l|n v e|k n v l] eqn:Ep; [congruence|..];
      try (exists t; apply (Hm t n); rewrite Ep; reflexivity).
    - exists t; unfold move; rewrite Ep; eexists; reflexivity.
    - exists t; unfold move; rewrite Ep; destruct (dget String.eqb pts n); eexists; reflexivity.
    - exists t; unfold move; rewrite Ep; destruct (reg_check possible_level_name k n v); eexists; reflexivity.
    - destruct (held s (lockof n)) eqn:Eh.
      + destruct (lk_who _ _ _ _ _ _ _ _ _ _ Lk _ Eh) as (u & m & Hu & _); exists u; apply (Hm u m Hu).
      + exists t; unfold move; rewrite Ep, Eh; eexists; reflexivity.
    - exists t; unfold move; rewrite Ep; eexists; reflexivity.
  Qed.

  (** A thread makes at most eight moves for each keyword of its calls and one more for each call. *)
  Definition moves (t : nat) (xs : list label) : nat := length (filter (fun x => match x with LMove u => Nat.eqb u t | _ => false end) xs).
  Definition calls (t : nat) (xs : list label) : list cop := flat_map (fun x => match x with LCall u o => if Nat.eqb u t then [o] else [] | _ => [] end) xs.
  Fixpoint total (os : list cop) : nat := match os with [] => 0 | o :: r => 8 * length (ops_of o) + 1 + total r end.
  Definition work (p : pc) : nat :=
    match p with
    | Idle => 0 | Todo l => 8 * length l + 1 | Wait _ _ l => 8 * length l + 8 | Once _ _ l => 8 * length l + 7 | Prove _ _ l => 8 * length l + 6
    | Conf _ _ _ cf l => 8 * length l + 4 + length cf | Chg _ _ l => 8 * length l + 3 | Rel _ _ l => 8 * length l + 2 | Fail _ _ _ => 1
    | Half _ _ _ l => 8 * length l + 2
    end.
  Lemma conflicts_short : forall n, length (p_conflicts (point_of isident class_or_callable is_module has_loads has_dumps loads_callable dumps_callable debug n)) <= 1.
  Proof.
    intros n; unfold point_of; destruct (dget String.eqb pts n) as [p|] eqn:E; [|cbn; lia].
    apply (dget_In String.eqb String.eqb_spec) in E.
    assert (Forall (fun x => length (p_conflicts (snd x)) <= 1) pts) as F by (repeat (apply Forall_cons; [cbn; lia|]); apply Forall_nil).
    rewrite Forall_forall in F; exact (F _ E).
  Qed.
  Lemma run_snoc : forall xs x s, rn s (xs ++ [x]) = match rn s xs with Some s1 => stp s1 x | None => None end.
  Proof.
    induction xs as [|y xs IH]; intros x s; cbn [app run]; [destruct (stp s x); reflexivity|].
    destruct (stp s y); [apply IH|reflexivity].
  Qed.
  Lemma work_step : forall s t s', mv s t = Some s' -> work (pcs s' t) < work (pcs s t) /\ forall u, u <> t -> pcs s' u = pcs s u.
  Proof.
    intros s t s' E; unfold move in E.
    destruct (pcs s t) as [|[|[n v|k n v] l]|n v l|n v l|n v l|n v w [|[m f] cf] l|n v l|n v l|n v e|k n v l] eqn:Ep; try discriminate E;
      try (destruct (dget String.eqb pts n)); try (destruct (reg_check possible_level_name k n v)); try (destruct (held s (lockof n)); [discriminate E|]);
      try (destruct (once _ _ _ _ _ _ _ _ (conf s) n)); try (destruct (prove _ _ _ _ _ _ _ _ (conf s) n v)); try (destruct (f w (val (conf s) m)));
      injection E as <-; cbn [pcs]; (split; [rewrite upd_same; cbn [work length]; try (pose proof (conflicts_short n)); lia|intros u N; apply upd_other; exact N]).
  Qed.
  Lemma total_app : forall a b, total (a ++ b) = total a + total b.
  Proof. induction a as [|x a IH]; intros b; cbn [app total]; [reflexivity|rewrite IH; lia]. Qed.

  Theorem C73_bounded : forall xs s t, rn s0 xs = Some s -> moves t xs <= total (calls t xs).
  Proof.
    assert (forall xs s t, rn s0 xs = Some s -> moves t xs + work (pcs s t) <= total (calls t xs)) as G.
    { induction xs as [|x xs IH] using rev_ind; intros s t E; [injection E as <-; cbn; lia|].
      rewrite run_snoc in E; destruct (rn s0 xs) as [s1|] eqn:E1; [|discriminate E].
      specialize (IH s1 t eq_refl); unfold moves, calls in *; rewrite filter_app, app_length, flat_map_app, total_app.
      destruct x as [u o|u]; cbn [step filter flat_map] in *.
      - destruct (pcs s1 u) eqn:Eu; try discriminate E; injection E as <-; cbn [pcs length app].
        unfold upd; rewrite (Nat.eqb_sym t u); destruct (Nat.eqb_spec u t) as [->|N]; cbn [total app]; [rewrite Eu in IH; cbn [work] in *; lia|lia].
      - apply work_step in E; destruct E as [W1 W2]; cbn [app total]; destruct (Nat.eqb_spec u t) as [->|N]; cbn [length]; [lia|rewrite W2 by congruence; lia]. }
    intros xs s t E; specialize (G xs s t E); lia.
  Qed.

  (** Each call goes through its keywords in order and stops at the first refusal. *)
  Definition left_of (p : pc) (l : list op) : Prop :=
    match p with
    | Idle => False
    | Todo r => l = r
    | Wait n v r | Once n v r | Prove n v r | Conf n v _ _ r | Chg n v r | Rel n v r => l = OSet n v :: r
    | Fail n v _ => exists r, l = OSet n v :: r
    | Half k n v r => l = OReg k n v :: r
    end.
  Definition strip (h : list (nat * op * Res unit)) : list (op * Res unit) := map (fun x => (snd (fst x), snd x)) h.
  Definition oks (l : list op) : list (op * Res unit) := map (fun o => (o, Ok tt)) l.
  Lemma told_app : forall a l r, told l r -> told (a ++ l) (oks a ++ r).
  Proof. induction a as [|o a IH]; intros l r H; [exact H|]; cbn; apply told_ok, IH, H. Qed.
  Lemma strip_app : forall a b, strip (a ++ b) = strip a ++ strip b.
  Proof. intros; apply map_app. Qed.

  Definition at_work (xs : list label) (s : st) (t : nat) : Prop :=
    (pcs s t = Idle /\ exists rs, Forall2 (fun o r => told (ops_of o) r) (calls t xs) rs /\ strip (part t (hist s)) = concat rs) \/
    (exists done o rs a l, calls t xs = done ++ [o] /\ Forall2 (fun o r => told (ops_of o) r) done rs /\
       strip (part t (hist s)) = concat rs ++ oks a /\ ops_of o = a ++ l /\ left_of (pcs s t) l).

  Lemma at_work_run : forall xs s t, rn s0 xs = Some s -> at_work xs s t.
  Proof.
    induction xs as [|x xs IH] using rev_ind; intros s t E.
    { injection E as <-; left; split; [reflexivity|]; exists []; split; [constructor|reflexivity]. }
    rewrite run_snoc in E; destruct (rn s0 xs) as [s1|] eqn:E1; [|discriminate E].
    specialize (IH s1 t eq_refl).
    destruct x as [u o|u]; cbn [step] in E.
    - destruct (pcs s1 u) eqn:Eu; try discriminate E; injection E as <-.
      unfold at_work, calls in *; rewrite flat_map_app; cbn [pcs hist flat_map app].
      destruct (Nat.eqb_spec u t) as [->|N].
      + rewrite upd_same; cbn [app]; right; destruct IH as [(_ & rs & F & Es)|(done & o' & rs & a & l & _ & _ & _ & _ & K)]; [|rewrite Eu in K; destruct K].
        exists (calls t xs), o, rs, [], (ops_of o); split; [reflexivity|]; split; [exact F|]; split; [rewrite Es; symmetry; apply app_nil_r|]; split; reflexivity.
      + rewrite upd_other by congruence; rewrite !app_nil_r; exact IH.
    - assert (calls t (xs ++ [LMove u]) = calls t xs) as Ec by (unfold calls; rewrite flat_map_app; cbn; apply app_nil_r).
      unfold at_work; rewrite Ec; destruct (Nat.eq_dec u t) as [->|N].
      + destruct IH as [(Ei & _)|(done & o & rs & a & l & H1 & H2 & H3 & H4 & K)]; [unfold move in E; rewrite Ei in E; discriminate E|].
        assert (forall r, told l r -> Forall2 (fun o r => told (ops_of o) r) (calls t xs) (rs ++ [oks a ++ r])) as Fin.
        { intros r Hr; rewrite H1; apply Forall2_app; [exact H2|]; constructor; [|constructor]; rewrite H4; apply told_app, Hr. }
        unfold move in E; destruct (pcs s1 t) as [|[|[n v|k n v] l1]|n v l1|n v l1|n v l1|n v w [|[m f] cf] l1|n v l1|n v l1|n v e|k n v l1] eqn:Ep; cbn [left_of] in K; try discriminate E;
          try (destruct (dget String.eqb pts n)); try (destruct (reg_check possible_level_name k n v)); try (destruct (held s1 (lockof n)); [discriminate E|]);
          try (destruct (once _ _ _ _ _ _ _ _ (conf s1) n)); try (destruct (prove _ _ _ _ _ _ _ _ (conf s1) n v)); try (destruct (f w (val (conf s1) m)));
          injection E as <-; cbn [pcs hist]; rewrite upd_same; rewrite ?part_app, ?strip_app, H3; cbn [part filter fst strip map snd]; rewrite ?Nat.eqb_refl; cbn [strip map fst snd];
          try (subst l; right; exists done, o, rs, a; eexists; split; [exact H1|]; split; [exact H2|]; split; [reflexivity|]; split; [exact H4|]; reflexivity);
          try (subst l; right; exists done, o, rs, a; eexists; split; [exact H1|]; split; [exact H2|]; split; [reflexivity|]; split; [exact H4|]; eexists; reflexivity);
          try (subst l; left; split; [reflexivity|]; exists (rs ++ [oks a ++ []]); split; [apply Fin; constructor|rewrite concat_app; cbn; rewrite !app_nil_r; reflexivity]);
          try (subst l; left; split; [reflexivity|]; eexists; split; [apply Fin; apply told_err|rewrite concat_app; cbn; rewrite app_nil_r, app_assoc; reflexivity]);
          try (destruct K as (r & K); subst l; left; split; [reflexivity|]; eexists; split; [apply Fin; apply told_err|rewrite concat_app; cbn; rewrite app_nil_r, app_assoc; reflexivity]).
        all: subst l; right; match goal with |- context [[(?q, Ok tt)]] => exists done, o, rs, (a ++ [q]), l1 end;
          split; [exact H1|]; split; [exact H2|]; split; [unfold oks; rewrite map_app, app_assoc; reflexivity|]; split; [rewrite <- app_assoc; exact H4|reflexivity].
      + assert (pcs s t = pcs s1 t) as -> by (apply (work_step _ _ _ E); congruence).
        assert (part t (hist s) = part t (hist s1)) as ->; [|exact IH].
        assert (exists hn, hist s = hist s1 ++ tag u hn) as (hn & ->); [|rewrite part_app, part_tag_other by congruence; apply app_nil_r].
        unfold move in E; destruct (pcs s1 u) as [|[|[n v|k n v] l1]|n v l1|n v l1|n v l1|n v w [|[m f] cf] l1|n v l1|n v l1|n v e|k n v l1]; try discriminate E;
          try (destruct (dget String.eqb pts n)); try (destruct (reg_check possible_level_name k n v)); try (destruct (held s1 (lockof n)); [discriminate E|]);
          try (destruct (once _ _ _ _ _ _ _ _ (conf s1) n)); try (destruct (prove _ _ _ _ _ _ _ _ (conf s1) n v)); try (destruct (f w (val (conf s1) m)));
          injection E as <-; cbn [hist]; first [exists []; symmetry; apply app_nil_r|eexists [(_, _)]; reflexivity].
  Qed.

  Theorem C73_calls : forall xs s t, rn s0 xs = Some s -> pcs s t = Idle ->
    exists rs, Forall2 (fun o r => told (ops_of o) r) (calls t xs) rs /\ map (fun x => (snd (fst x), snd x)) (part t (hist s)) = concat rs.
  Proof.
    intros xs s t E Ei; destruct (at_work_run xs s t E) as [(_ & H)|(done & o & rs & a & l & _ & _ & _ & _ & K)]; [exact H|rewrite Ei in K; destruct K].
  Qed.
End Props.

(** *** Concrete cases *)
Definition tr (_ : nat) := true.
Definition okname (s : string) : bool := true.
Definition crun := run okname tr tr tr tr tr tr true okname (start okname tr tr tr tr tr tr true).
Definition cread := read okname tr tr tr tr tr tr true.
Definition cset0 := config_set okname tr tr tr tr tr tr true.
Definition cc0 := cfg0 okname tr tr tr tr tr tr true.
Definition go (t k : nat) : list label := repeat (LMove t) k.
Definition reg (n : string) (z : Z) : cop := CLevels [(n, VInt z)].

(** Two threads compete for the pool: the second waits, then is refused by what the first has done; while the first holds the lock the pool cannot be
    read, but the level can. *)
Example race_pool :
  let a := [LCall 1 (CSet [("pool_size", VInt 2); ("max_queue_size", VInt 5)]); LCall 2 (CSet [("pool_size", VInt 0)])] in
  crun (a ++ go 2 1 ++ go 1 12 ++ go 2 1) = None /\
  match crun (a ++ go 2 1 ++ go 1 12) with
  | Some s => cread s "pool_size" = None /\ cread s "level" = Some (Ok (VInt 0)) /\ cread s "nothing" = Some (Err EKeyError)
  | None => False end /\
  match crun (a ++ go 2 1 ++ go 1 17 ++ go 2 5) with
  | Some s => cread s "pool_size" = Some (Ok (VInt 2)) /\ cread s "max_queue_size" = Some (Ok (VInt 5)) /\
              hist s = [(1, OSet "pool_size" (VInt 2), Ok tt); (1, OSet "max_queue_size" (VInt 5), Ok tt); (2, OSet "pool_size" (VInt 0), Err EValueError)] /\
              pcs s 1 = Idle /\ pcs s 2 = Idle
  | None => False end.
Proof. vm_compute; repeat split; reflexivity. Qed.

(** Both threads write the first log at once: one of them learns that the other was first. *)
Example race_started :
  match crun ([LCall 1 (CSet [("started", VBool true)]); LCall 2 (CSet [("started", VBool true)])] ++ go 1 1 ++ go 2 7 ++ go 1 3) with
  | Some s => hist s = [(2, OSet "started" (VBool true), Ok tt); (1, OSet "started" (VBool true), Err EDoubleSetting)] | None => False end.
Proof. vm_compute; reflexivity. Qed.

(** Settings of different families do not wait for each other. *)
Example race_apart :
  match crun ([LCall 1 (CSet [("level", VInt 5)]); LCall 2 (CSet [("default_level", VInt 7)]); LCall 3 (CSet [("default_error_level", VInt 8)])]
              ++ go 1 2 ++ go 2 2 ++ go 3 1 ++ go 1 6 ++ go 2 4) with
  | Some s => pcs s 1 = Idle /\ cread s "level" = Some (Ok (VInt 5)) /\ cread s "default_level" = Some (Ok (VInt 7)) /\ held s "default_level" = true
  | None => False end.
Proof. vm_compute; repeat split; reflexivity. Qed.

(** A call with several keywords is not one step (refuted): the first thread is refused although in both orders of the two calls it is not. *)
Theorem C73_call_atomic_refuted : exists xs s kw1 kw2,
  crun (LCall 1 (CSet kw1) :: LCall 2 (CSet kw2) :: xs) = Some s /\ pcs s 1 = Idle /\ pcs s 2 = Idle /\
  In (1, OSet "max_queue_size" (VInt 5), Err EValueError) (hist s) /\
  snd (cset0 cc0 kw1) = Ok tt /\ snd (cset0 (fst (cset0 cc0 kw2)) kw1) = Ok tt /\ snd (cset0 cc0 kw2) = Ok tt.
Proof.
  exists (go 1 8 ++ go 2 9 ++ go 1 6).
  exists (match crun (LCall 1 (CSet [("pool_size", VInt 2); ("max_queue_size", VInt 5)]) :: LCall 2 (CSet [("pool_size", VInt 0)]) :: go 1 8 ++ go 2 9 ++ go 1 6) with
          | Some s => s | None => start okname tr tr tr tr tr tr true end).
  exists [("pool_size", VInt 2); ("max_queue_size", VInt 5)], [("pool_size", VInt 0)].
  vm_compute; repeat split; try reflexivity; right; right; left; reflexivity.
Qed.

(** A name and its number, one after another: after any registration the name just registered and its number lead to each other. *)
Theorem C73_levels_alone : forall c n v, is_int v = true ->
  let L := fst (levels_set (lvls c) (Some n) v) in
  levels_get L (VStr n) = Ok v /\ get_level_name L (VInt (number v)) = Some n.
Proof.
  intros c n v E; unfold levels_set; rewrite E; cbn [fst levels_get lv get_level_name lv_rev].
  rewrite (dget_dset_same String.eqb String.eqb_spec), (dget_dset_same Z.eqb Z.eqb_spec); split; reflexivity.
Qed.
(** With threads this is lost (refuted): four registrations after which no name registered leads to a number that leads back to it. *)
Theorem C73_levels_round_trip_refuted : exists xs s,
  crun xs = Some s /\ (forall t, pcs s t = Idle) /\ length (hist s) = 4 /\ Forall (fun x => snd x = Ok tt) (hist s) /\
  forall n v, levels_get (lvls (conf s)) (VStr n) = Ok v -> get_level_name (lvls (conf s)) (VInt (number v)) <> Some n.
Proof.
  exists ([LCall 1 (reg "A" 5); LCall 2 (reg "A" 7); LCall 3 (reg "B" 7); LCall 4 (reg "B" 5)]
          ++ [LMove 1; LMove 3; LMove 2; LMove 2; LMove 3; LMove 4; LMove 4; LMove 1] ++ [LMove 1; LMove 2; LMove 3; LMove 4]).
  eexists; split; [vm_compute; reflexivity|]; split; [intros [|[|[|[|[|t]]]]]; reflexivity|]; split; [reflexivity|].
  split; [repeat (apply Forall_cons; [reflexivity|]); apply Forall_nil|].
  intros n v; cbn [conf lvls levels_get lv dget].
  destruct (String.eqb_spec "A" n) as [<-|N1].
  - intros H; injection H as <-; vm_compute; discriminate.
  - destruct (String.eqb_spec "B" n) as [<-|N2]; intros H; [injection H as <-; vm_compute; discriminate|].
    rewrite (proj2 (String.eqb_neq n "A")), (proj2 (String.eqb_neq n "B")) in H by congruence; discriminate H.
Qed.

(** A read that takes no lock has no place in the order (refuted): thread 2 has renumbered the level and sees that the setting of thread 1 has not
    happened; it happens afterwards, with the old number. *)
Theorem C73_unlocked_read_refuted : exists a b s1 s2,
  crun a = Some s1 /\ In (2, OReg true "x" (VInt 7), Ok tt) (hist s1) /\ cread s1 "level" = Some (Ok (VInt 0)) /\
  crun (a ++ b) = Some s2 /\ hist s2 = hist s1 ++ [(1, OSet "level" (VStr "x"), Ok tt)] /\ cread s2 "level" = Some (Ok (VInt 5)) /\
  levels_get (lvls (conf s1)) (VStr "x") = Ok (VInt 7).
Proof.
  exists ([LCall 2 (reg "x" 5)] ++ go 2 3 ++ [LCall 1 (CSet [("level", VStr "x")])] ++ go 1 4 ++ [LCall 2 (reg "x" 7)] ++ go 2 3), (go 1 3).
  eexists; eexists; split; [vm_compute; reflexivity|]; split; [right; left; reflexivity|]; split; [reflexivity|].
  split; [vm_compute; reflexivity|]; split; [reflexivity|]; split; reflexivity.
Qed.

Print Assumptions C73_locks.
Print Assumptions C73_serial.
Print Assumptions C73_alone.
Print Assumptions C73_consistent.
Print Assumptions C73_started.
Print Assumptions C73_never_stuck.
Print Assumptions C73_bounded.
Print Assumptions C73_calls.
Print Assumptions C73_call_atomic_refuted.
Print Assumptions C73_levels_round_trip_refuted.
Print Assumptions C73_unlocked_read_refuted.
