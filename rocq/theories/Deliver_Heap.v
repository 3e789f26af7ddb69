(** How the nodes of the source tree fare while its registrations change: a node stays where it is, or is cut
    off for good together with everything below it, and then holds nothing. *)
From Verif Require Import Base Tree_Model Tree_Spec Tree_Heap Tree_Ops Tree_Project Tree_Proofs.

Section Evo.
  Context {V : Type}.
  Implicit Types (h : heap V).

  Definition reach h n : Prop := exists q, walk h 0 q = Some n.

  Record evo (loc : nat -> bool) h h' : Prop := {
    ev_len : length h <= length h';
    ev_walk : forall q n, walk h 0 q = Some n -> walk h' 0 q = Some n \/ (~ reach h' n /\ barren h' n);
    ev_gone : forall n, n < length h -> loc n = false -> ~ reach h n -> ~ reach h' n /\ (barren h n -> barren h' n)
  }.

  Lemma evo_refl : forall loc h, evo loc h h.
  Proof. intros loc h; split; auto. Qed.

  Lemma evo_trans : forall loc loc1 h h1 h2, WF loc h -> agree loc loc1 (length h) ->
    evo loc h h1 -> evo loc1 h1 h2 -> evo loc h h2.
  Proof.
    intros loc loc1 h h1 h2 W A [L1 W1 G1] [L2 W2 G2]; split; [lia| |].
    - intros q n Hq; destruct (W1 q n Hq) as [H|[Hr Hb]]; [apply W2; exact H|right].
      assert (n < length h) as Hn by exact (walk_alloc _ _ _ _ _ W (wf_pos _ _ W) Hq).
      assert (loc n = false) as Ln by exact (walk_src _ _ _ _ _ W (wf_root _ _ W) Hq).
      destruct (G2 n) as [H1 H2]; [lia|rewrite A by exact Hn; exact Ln|exact Hr|auto].
    - intros n Hn Ln Hr; destruct (G1 n Hn Ln Hr) as [H1 H2].
      destruct (G2 n) as [H3 H4]; [lia|rewrite A by exact Hn; exact Ln|exact H1|auto].
  Qed.

  (** A node above a node of the tree is a node of the tree. *)
  Lemma reach_up : forall loc h, WF loc h -> forall q n x, loc n = false ->
    walk h n q = Some x -> reach h x -> reach h n.
  Proof.
    intros loc h W q; induction q as [|k q IH] using rev_ind; intros n x Ln Hq Hx.
    - cbn [walk] in Hq; injection Hq as ->; exact Hx.
    - apply walk_snoc in Hq; destruct Hq as (p & Hp & E).
      apply (IH n p Ln Hp).
      assert (loc p = false) as Lp by exact (walk_src _ _ _ _ _ W Ln Hp).
      destruct Hx as (q' & Hq'); destruct q' as [|k' q'] using rev_ind.
      + cbn [walk] in Hq'; injection Hq' as <-; destruct (wf_root_nochild _ _ W _ _ E).
      + apply walk_snoc in Hq'; destruct Hq' as (p' & Hp' & E').
        assert (loc p' = false) as Lp' by exact (walk_src _ _ _ _ _ W (wf_root _ _ W) Hp').
        destruct (wf_edge_src _ _ W _ _ _ E Lp) as (_ & E1 & _).
        destruct (wf_edge_src _ _ W _ _ _ E' Lp') as (_ & E2 & _).
        exists q'; rewrite Hp'; congruence.
  Qed.

  Lemma reach_down : forall h q n x, walk h n q = Some x -> reach h n -> reach h x.
  Proof. intros h q n x Hq (q0 & H0); exists (q0 ++ q); rewrite walk_app, H0; exact Hq. Qed.

  (** *** New nodes *)
  Lemma wc_edge_old : forall ks loc h x, WF loc h -> x < length h ->
    forall p k c, edge (fst (walk_create h x ks)) p k c -> c < length h -> edge h p k c.
  Proof.
    induction ks as [|k0 ks IH]; intros loc h x W Hx p k c; cbn [walk_create].
    - auto.
    - destruct (dget String.eqb (nchilds (hget h x)) k0) as [c0|] eqn:E.
      + apply (IH loc); [exact W|]; apply (wf_edge_alloc _ _ W x k0 c0 E).
      + pose proof (cc_WF loc h x k0 W Hx E) as W1.
        pose proof (cc_length h x k0) as L1.
        pose proof (cc_edge h x k0 Hx E) as Ed1.
        pose proof (cc_id h x k0) as Id1.
        destruct (create_child h x k0) as [h1 c1]; cbn [fst snd] in *; subst c1.
        intros Hed Hc; apply (IH _ h1 (length h) W1) in Hed; [|lia|lia].
        apply Ed1 in Hed; destruct Hed as [H|(_ & _ & ->)]; [exact H|lia].
  Qed.

  Lemma back_walk : forall loc h h', WF loc h -> length h <= length h' ->
    (forall p k c, edge h' p k c -> c < length h -> edge h p k c) ->
    forall q n, walk h' 0 q = Some n -> n < length h -> walk h 0 q = Some n.
  Proof.
    intros loc h h' W L EO q; induction q as [|k q IH] using rev_ind; intros n Hq Hn; [exact Hq|].
    apply walk_snoc in Hq; destruct Hq as (p & Hp & E).
    apply EO in E; [|exact Hn]; apply walk_snoc; exists p; split; [|exact E].
    apply IH; [exact Hp|apply (wf_edge_alloc _ _ W _ _ _ E)].
  Qed.

  Lemma evo_create : forall ks loc h, WF loc h -> evo loc h (fst (walk_create h 0 ks)).
  Proof.
    intros ks loc h W.
    destruct (walk_create_spec ks loc h 0 W (wf_pos _ _ W) (wf_root _ _ W))
      as (loc1 & h1 & n & E1 & W1 & A1 & X1 & _).
    pose proof (wc_edge_old ks loc h 0 W (wf_pos _ _ W)) as EO; rewrite E1 in *; cbn [fst] in *.
    split; [apply (ext_len _ _ X1)| |].
    - intros q m Hq; left; apply (ext_walk _ _ X1); exact Hq.
    - intros m Hm _ Hr; split.
      + intros (q & Hq); apply Hr; exists q; apply (back_walk loc h h1 W (ext_len _ _ X1) EO); assumption.
      + intros B q; rewrite (ext_lookup _ _ X1); apply B.
  Qed.

  (** *** Changes outside the source tree *)
  Lemma evo_frame : forall loc h h', WF loc h -> length h <= length h' ->
    (forall i, i < length h -> loc i = false -> hget h' i = hget h i) -> evo loc h h'.
  Proof.
    intros loc h h' W L F.
    assert (forall q x, x < length h -> loc x = false -> walk h' x q = walk h x q) as Wk.
    { apply (walk_src_frame loc h h' W); intros i Hi Li; rewrite F by assumption; reflexivity. }
    split; [exact L| |].
    - intros q n Hq; left; rewrite Wk; [exact Hq|apply W|apply W].
    - intros n Hn Ln Hr; split.
      + intros (q & Hq); apply Hr; exists q; rewrite <- (Wk q 0); [exact Hq|apply W|apply W].
      + intros B q; specialize (B q); unfold lookup in *; rewrite Wk by assumption.
        destruct (walk h n q) as [m|] eqn:E; [|reflexivity].
        rewrite F; [exact B|exact (walk_alloc _ _ _ _ _ W Hn E)|exact (walk_src _ _ _ _ _ W Ln E)].
  Qed.

  (** *** A value *)
  Lemma evo_set_val : forall loc h x v, WF loc h -> x < length h -> reach h x -> evo loc h (set_val h x v).
  Proof.
    intros loc h x v W Hx Rx; split; [rewrite length_set_val; lia| |].
    - intros q n Hq; left; rewrite walk_set_val; exact Hq.
    - intros n Hn Ln Hr; split.
      + intros (q & Hq); rewrite walk_set_val in Hq; apply Hr; exists q; exact Hq.
      + intros B q; rewrite lookup_set_val by exact Hx.
        specialize (B q); unfold lookup in B; destruct (walk h n q) as [m|] eqn:E; [|reflexivity].
        destruct (Nat.eqb_spec m x) as [->|]; [|exact B].
        destruct Hr; exact (reach_up loc h W q n x Ln E Rx).
  Qed.

  (** *** Pruning *)
  Lemma prune_lost : forall h h', prune h h' -> forall q y n, walk h y q = Some n -> walk h' y q = None -> barren h n.
  Proof.
    intros h h' P q; induction q as [|k q IH]; intros y n Hq Hn; [discriminate Hn|].
    apply walk_cons in Hq; destruct Hq as (c & E & Hq).
    destruct (pr_keep _ _ P _ _ _ E) as [E'|B].
    - apply (IH c n Hq); cbn [walk] in Hn; unfold edge in E'; rewrite E' in Hn; exact Hn.
    - intros s; specialize (B (q ++ s)); rewrite lookup_app, Hq in B; exact B.
  Qed.

  Lemma evo_prune : forall loc h h', WF loc h -> prune h h' -> evo loc h h'.
  Proof.
    intros loc h h' W P; split; [rewrite (pr_len _ _ P); lia| |].
    - intros q n Hq; destruct (walk h' 0 q) as [m|] eqn:E.
      + left; apply (prune_walk _ _ P) in E; congruence.
      + right; split.
        * intros (q' & Hq'); assert (walk h 0 q' = Some n) as H by (apply (prune_walk _ _ P); exact Hq').
          rewrite (walk_inj _ _ W _ _ _ H Hq) in Hq'; congruence.
        * intros s; rewrite (prune_lookup _ _ P); apply (prune_lost _ _ P q 0 n Hq E).
    - intros n _ _ Hr; split.
      + intros (q & Hq); apply Hr; exists q; apply (prune_walk _ _ P); exact Hq.
      + intros B q; rewrite (prune_lookup _ _ P); apply B.
  Qed.
End Evo.

Section Steps.
  Context {V : Type}.
  Variable kc : string -> bool.
  Variable vc : V -> bool.
  Implicit Types (h : heap V).

  Lemma evo_project_loop : forall ks loc h r, WF loc h -> local_root loc h r -> gates_ok loc h r ->
    evo loc h (fst (project_loop kc h 0 r ks)).
  Proof.
    induction ks as [|k ks IH]; intros loc h r W (Lr & Hr & Hrp) Gok; cbn [project_loop].
    - apply evo_refl.
    - destruct (keys_cases kc k) as [(E & E2 & Hk)|[(-> & E1 & E2)|(p & Hne & Hk & E1 & E2 & Hd)]].
      + rewrite E2; destruct k as [s|]; [destruct (String.eqb s sep)|]; apply evo_refl.
      + rewrite String.eqb_refl; apply evo_refl.
      + rewrite E2.
        assert (match k with KStr s => String.eqb s sep | KOther => false end = false) as ->.
        { destruct k as [s|]; [|reflexivity]; destruct (String.eqb_spec s sep) as [->|]; [congruence|reflexivity]. }
        rewrite search_or_create_path by exact Hd.
        pose proof (evo_create p loc h W) as V1.
        destruct (walk_create_spec p loc h 0 W (wf_pos _ _ W) (wf_root _ _ W))
          as (loc1 & h1 & n & Ec & W1 & A1 & X1 & N1 & F1 & Wn & Hn & Inv1 & Me1).
        rewrite Ec in *; cbn [fst] in V1.
        pose proof (ext_len _ _ X1) as XL.
        assert (local_root loc1 h1 r) as LR1.
        { split; [rewrite A1 by exact Hr; exact Lr|]; split; [lia|]; rewrite F1 by assumption; exact Hrp. }
        assert (gates_ok loc1 h1 r) as Gok1.
        { intros q m G; apply (ext_walk _ _ X1), Gok.
          apply (gate_frame loc loc1 h h1 r); auto; intros i Hi Li; rewrite F1 by assumption; reflexivity. }
        destruct (put_walk_spec p loc1 h1 r r n [] W1 LR1 eq_refl (proj1 LR1) Hne Gok1 Wn)
          as (loc2 & h2 & E3 & W2 & A2 & L2 & N2 & Nv2 & F2 & Fr2 & Rp2 & Gok2 & _).
        assert (put_node kc h1 r k n = (h2, Ok r)) as ->.
        { unfold put_node; destruct k as [s|]; [|discriminate].
          destruct (String.eqb_spec s sep) as [->|]; [congruence|]; rewrite E2, E3; reflexivity. }
        apply (evo_trans loc loc1 h h1); [exact W|exact A1|exact V1|].
        apply (evo_trans loc1 loc2 h1 h2); [exact W1|exact A2|apply evo_frame; assumption|].
        apply IH; [exact W2| |exact Gok2].
        split; [rewrite A2 by apply LR1; apply LR1|]; split; [destruct LR1 as (_ & H & _); lia|exact Rp2].
  Qed.

  Lemma evo_project : forall ks b loc h, Inv b loc h -> evo loc h (fst (project kc h 0 ks)).
  Proof.
    intros ks b loc h I; destruct (new_root_Inv kc b loc h I) as (Er & I1 & LR1 & Eo & Ew & El & Ec).
    unfold project; destruct (new_root h) as [h1 r] eqn:En; cbn [fst snd] in *; subst r.
    set (loc1 := fun i => if Nat.eqb i (length h) then true else loc i) in *.
    assert (length h < length h1) as L1 by apply LR1.
    apply (evo_trans loc loc1 h h1); [apply I| | |].
    - intros i Hi; unfold loc1; destruct (Nat.eqb_spec i (length h)); [lia|reflexivity].
    - apply evo_frame; [apply I|lia|intros i Hi _; apply Eo; exact Hi].
    - apply evo_project_loop; [apply I1|exact LR1|].
      intros q m (q1 & k & x & -> & Hx & _ & E & _).
      destruct q1 as [|k1 q1].
      + cbn [walk] in Hx; injection Hx as <-; unfold edge in E; rewrite Ec in E; discriminate.
      + cbn [walk] in Hx; rewrite Ec in Hx; discriminate.
  Qed.

  Lemma evo_set : forall b loc h k p v, Inv b loc h -> parse kc k = Some p -> vc v = true ->
    exists h', tree_set kc vc h 0 k (Some v) = Ok h' /\ evo loc h h'.
  Proof.
    intros b loc h k p v (W & _) Hk Hv.
    assert (exists keys, get_converted_keys kc k = Ok keys /\ (match k with KStr _ => True | KOther => False end) /\
            search_or_create_node h 0 keys = walk_create h 0 p) as (keys & Ek & Hks & Es).
    { destruct (keys_cases kc k) as [(E & _)|[(-> & E1 & E2)|(p' & Hne & _ & E1 & E2 & Hd)]]; [congruence| |].
      - assert (p = []) as -> by congruence. exists [sep]; auto.
      - assert (p' = p) as -> by congruence. exists p; split; [exact E2|]; split.
        + destruct k; [exact I|discriminate].
        + apply search_or_create_path; exact Hd. }
    pose proof (evo_create p loc h W) as V1.
    destruct (walk_create_spec p loc h 0 W (wf_pos _ _ W) (wf_root _ _ W))
      as (loc1 & h1 & n & E1 & W1 & A1 & X1 & N1 & F1 & Wn & Hn & _).
    exists (set_val h1 n (Some v)); split.
    { unfold tree_set; destruct k as [s|]; [|destruct Hks]; rewrite Hv, Ek, Es, E1; reflexivity. }
    rewrite E1 in V1; cbn [fst] in V1.
    apply (evo_trans loc loc1 h h1); [exact W|exact A1|exact V1|].
    apply evo_set_val; [exact W1|exact Hn|exists p; exact Wn].
  Qed.

  Lemma evo_del : forall b loc h k h', Inv b loc h -> tree_del kc h 0 k = Ok h' -> evo loc h h'.
  Proof.
    intros b loc h k h' (W & _) E; unfold tree_del in E.
    destruct (parse kc k) as [p|] eqn:Hk.
    - assert (exists keys, get_converted_keys kc k = Ok keys /\ search_node h 0 keys = walk h 0 p) as (keys & Ek & Es).
      { destruct (keys_cases kc k) as [(E0 & _)|[(-> & E1 & E2)|(p' & Hne & _ & E1 & E2 & Hd)]]; [congruence| |].
        - assert (p = []) as -> by congruence. exists [sep]; auto.
        - assert (p' = p) as -> by congruence. exists p; split; [exact E2|].
          apply search_node_path; assumption. }
      destruct k as [s|]; [|discriminate E]; rewrite Ek, Es in E.
      destruct (walk h 0 p) as [n|] eqn:Ew; [|discriminate E].
      destruct (nval (hget h n)) as [v|]; [|discriminate E].
      assert (n < length h) as Hn by exact (walk_alloc _ _ _ _ _ W (wf_pos _ _ W) Ew).
      set (h1 := set_val h n None) in *.
      assert (WF loc h1) as W1 by (apply WF_set_val; exact W).
      destruct (cut_spec (S (length h1)) loc h1 n 0 W1) as (h2 & Ec & P & _ & _).
      { unfold h1; rewrite length_set_val; exact Hn. }
      { unfold h1; rewrite length_set_val; lia. }
      { intros p0 k0; unfold h1; rewrite edge_set_val; apply (wf_root_nochild _ _ W). }
      assert (h2 = h') as -> by congruence.
      apply (evo_trans loc loc h h1); [exact W|intros i _; reflexivity| |apply evo_prune; assumption].
      apply evo_set_val; [exact W|exact Hn|exists p; exact Ew].
    - destruct k as [s|]; [|discriminate E].
      destruct (keys_cases kc (KStr s)) as [(_ & E2 & _)|[(_ & E1 & _)|(p & _ & _ & E1 & _)]]; [|congruence|congruence].
      rewrite E2 in E; discriminate E.
  Qed.

  (** Any operation on the tree. *)
  Lemma step_evo : forall b loc h o, Inv b loc h -> evo loc h (fst (tree_step kc vc h o)).
  Proof.
    intros b loc h o I; destruct o as [k v|k|k|k| |ks]; cbn [tree_step].
    - destruct (tree_set kc vc h 0 k v) as [h'|e] eqn:E; cbn [fst]; [|apply evo_refl].
      assert (exists p x, v = Some x /\ vc x = true /\ parse kc k = Some p) as (p & x & -> & Ex & Ep).
      { unfold tree_set in E; destruct k as [s|]; [|discriminate E]; destruct v as [x|]; [|discriminate E].
        destruct (vc x) eqn:Ex; [|discriminate E].
        destruct (keys_cases kc (KStr s)) as [(_ & E2 & _)|[(_ & E1 & _)|(p & _ & _ & E1 & _)]].
        - rewrite E2 in E; discriminate E.
        - exists [], x; auto.
        - exists p, x; auto. }
      destruct (evo_set b loc h k p x I Ep Ex) as (h2 & E2 & V2); congruence.
    - destruct (tree_del kc h 0 k) as [h'|e] eqn:E; cbn [fst]; [|apply evo_refl].
      exact (evo_del b loc h k h' I E).
    - destruct (tree_get kc h 0 k); apply evo_refl.
    - destruct (tree_getitem kc h 0 k); apply evo_refl.
    - destruct (tree_len h 0); apply evo_refl.
    - pose proof (evo_project ks b loc h I) as H.
      destruct (project kc h 0 ks) as [h' [r|e]]; exact H.
  Qed.
End Steps.
