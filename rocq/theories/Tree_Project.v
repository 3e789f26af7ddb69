(** Projections: the local tree, its gates into the source tree, and what survives later. *)
From Verif Require Import Base Tree_Model Tree_Spec Tree_Heap Tree_Ops.

Section Project.
  Context {V : Type}.
  Implicit Types (h : heap V).

  (** A gate: the edge through which the local tree [r] enters the source tree, at path [q]. *)
  Definition gate (loc : nat -> bool) h r (q : path) (m : nat) : Prop :=
    exists q1 k x, q = q1 ++ [k] /\ walk h r q1 = Some x /\ loc x = true /\ edge h x k m /\ loc m = false.

  (** Root of a local tree. *)
  Definition local_root (loc : nat -> bool) h r : Prop :=
    loc r = true /\ r < length h /\ nparent (hget h r) = None.

  Lemma walk_local_prefix : forall loc h, WF loc h -> forall q1 q2 r m, walk h r (q1 ++ q2) = Some m ->
    loc m = true -> exists x, walk h r q1 = Some x /\ loc x = true.
  Proof.
    intros loc h W q1 q2 r m H L; rewrite walk_app in H.
    destruct (walk h r q1) as [x|]; [|discriminate].
    exists x; split; [reflexivity|]; destruct (loc x) eqn:E; [reflexivity|].
    rewrite (walk_src _ _ _ _ _ W E H) in L; discriminate.
  Qed.

  Lemma walk_inj_loc : forall loc h r, WF loc h -> nparent (hget h r) = None -> forall q1 q2 n,
    loc n = true -> walk h r q1 = Some n -> walk h r q2 = Some n -> q1 = q2.
  Proof.
    intros loc h r W Hr q1; induction q1 as [|k1 q1 IH] using rev_ind; intros q2 n L H1 H2.
    - cbn [walk] in H1; injection H1 as <-.
      destruct q2 as [|k2 q2 _] using rev_ind; [reflexivity|].
      destruct (walk_local_prefix _ _ W _ _ _ _ H2 L) as (p & Hp & Lp).
      apply walk_snoc in H2; destruct H2 as (p' & Hp' & E).
      assert (p' = p) as -> by congruence.
      destruct (wf_edge_loc _ _ W _ _ _ E Lp L) as [H _]; congruence.
    - destruct (walk_local_prefix _ _ W _ _ _ _ H1 L) as (p & Hp & Lp).
      apply walk_snoc in H1; destruct H1 as (p' & Hp' & E).
      assert (p' = p) as -> by congruence.
      destruct (wf_edge_loc _ _ W _ _ _ E Lp L) as [Hpar Hname].
      destruct q2 as [|k2 q2 _] using rev_ind.
      + cbn [walk] in H2; injection H2 as <-; congruence.
      + destruct (walk_local_prefix _ _ W _ _ _ _ H2 L) as (p2 & Hp2 & Lp2).
        apply walk_snoc in H2; destruct H2 as (p2' & Hp2' & E2).
        assert (p2' = p2) as -> by congruence.
        destruct (wf_edge_loc _ _ W _ _ _ E2 Lp2 L) as [Hpar2 Hname2].
        assert (p2 = p) as -> by congruence. assert (k2 = k1) as -> by congruence.
        rewrite (IH q2 p Lp Hp Hp2); reflexivity.
  Qed.

  (** A walk from a local root ends in a local node or passes exactly one gate. *)
  Lemma walk_gate : forall loc h r, WF loc h -> loc r = true -> forall q m, walk h r q = Some m ->
    loc m = false -> exists q1 q2 g, q = q1 ++ q2 /\ gate loc h r q1 g /\ walk h g q2 = Some m.
  Proof.
    intros loc h r W Lr q; induction q as [|k q IH] using rev_ind; intros m H L.
    - cbn [walk] in H; injection H as <-; congruence.
    - apply walk_snoc in H; destruct H as (p & Hp & E).
      destruct (loc p) eqn:Lp.
      + exists (q ++ [k]), [], m; rewrite app_nil_r; repeat split; auto.
        exists q, k, p; auto.
      + destruct (IH p Hp Lp) as (q1 & q2 & g & -> & Hg & Hw).
        exists q1, (q2 ++ [k]), g; rewrite app_assoc; repeat split; auto.
        apply walk_snoc; exists p; auto.
  Qed.

  Lemma gate_walk : forall loc h r q m, gate loc h r q m -> walk h r q = Some m.
  Proof. intros loc h r q m (q1 & k & x & -> & Hw & _ & E & _); apply walk_snoc; exists x; auto. Qed.

  (** No gate lies strictly below another one. *)
  Lemma gate_unique_prefix : forall loc h r, WF loc h -> forall q1 m1 q2 m2,
    gate loc h r q1 m1 -> gate loc h r q2 m2 -> prefix q1 q2 -> q1 = q2.
  Proof.
    intros loc h r W q1 m1 q2 m2 G1 G2 (s & ->).
    destruct s as [|k s _] using rev_ind; [rewrite app_nil_r; reflexivity|exfalso].
    destruct G2 as (q & k2 & x & E & Hw & Lx & _ & _).
    rewrite app_assoc in E; apply app_inj_tail in E; destruct E as [<- _].
    rewrite walk_app, (gate_walk _ _ _ _ _ G1) in Hw.
    destruct G1 as (_ & _ & _ & _ & _ & _ & _ & Lm).
    rewrite (walk_src _ _ _ _ _ W Lm Hw) in Lx; discriminate.
  Qed.

  (** Changes that keep all source nodes leave walks from source nodes alone. *)
  Lemma walk_src_frame : forall loc h h', WF loc h ->
    (forall i, i < length h -> loc i = false -> nchilds (hget h' i) = nchilds (hget h i)) ->
    forall q x, x < length h -> loc x = false -> walk h' x q = walk h x q.
  Proof.
    intros loc h h' W F q; induction q as [|k q IH]; intros x Hx Lx; cbn [walk]; [reflexivity|].
    rewrite F by assumption.
    destruct (dget String.eqb (nchilds (hget h x)) k) as [c|] eqn:E; [|reflexivity].
    apply IH; [apply (wf_edge_alloc _ _ W _ _ _ E)|apply (wf_edge_src _ _ W _ _ _ E Lx)].
  Qed.

  Lemma hset_same : forall h i, hset h i (hget h i) = h.
  Proof.
    unfold hget; induction h as [|x r IH]; intros [|i]; cbn [hset nth]; try reflexivity.
    rewrite IH; reflexivity.
  Qed.

  Lemma dset_same_id : forall (d : list (string * nat)) k c,
    dget String.eqb d k = Some c -> dset String.eqb d k c = d.
  Proof.
    induction d as [|[k' c'] r IH]; intros k c H; cbn [dget dset] in *; [discriminate|].
    destruct (String.eqb_spec k k') as [->|Hn].
    - injection H as ->; reflexivity.
    - rewrite IH by exact H; reflexivity.
  Qed.

  Lemma put_walk_same : forall ks h x n, ks <> [] -> walk h x ks = Some n -> put_walk h x ks n = h.
  Proof.
    induction ks as [|k ks IH]; intros h x n Hne H; [congruence|].
    cbn [walk] in H; cbn [put_walk].
    destruct (dget String.eqb (nchilds (hget h x)) k) as [c|] eqn:E; [|discriminate].
    destruct ks as [|k2 ks].
    - cbn [walk] in H; injection H as ->.
      unfold set_childs; rewrite dset_same_id by exact E.
      destruct (hget h x) as [a b c d] eqn:En; cbn [nval nchilds nparent nname]; rewrite <- En; apply hset_same.
    - apply IH; [discriminate|exact H].
  Qed.

  (** *** Setting the last edge of a put *)
  Section Link.
    Variables (loc : nat -> bool) (h : heap V) (r x n : nat) (q0 : path) (k : string).
    Hypothesis W : WF loc h.
    Hypothesis Hr : nparent (hget h r) = None.
    Hypothesis Hrl : r < length h.
    Hypothesis Hx : walk h r q0 = Some x.
    Hypothesis Lx : loc x = true.
    Hypothesis Hn : n < length h.
    Hypothesis Ln : loc n = false.
    Hypothesis Hn0 : n <> 0.

    Let h' := set_childs h x (dset String.eqb (nchilds (hget h x)) k n).

    Lemma lk_alloc : x < length h.
    Proof. exact (walk_alloc _ _ _ _ _ W Hrl Hx). Qed.

    Lemma lk_edge : forall y k' c, edge h' y k' c <->
      (y = x /\ k' = k /\ c = n) \/ (~ (y = x /\ k' = k) /\ edge h y k' c).
    Proof.
      intros y k' c; unfold edge, h'. pose proof lk_alloc as A.
      destruct (Nat.eq_dec y x) as [->|Hy].
      - rewrite nchilds_set_childs_same by exact A.
        rewrite (dget_dset String.eqb String.eqb_spec).
        destruct (String.eqb_spec k' k) as [->|Hk].
        + split; [intros E; injection E as <-; left; auto|].
          intros [(_ & _ & ->)|(H & _)]; [reflexivity|exfalso; apply H; auto].
        + split; [right; split; [tauto|assumption]|].
          intros [(_ & E & _)|(_ & H)]; [congruence|exact H].
      - rewrite nchilds_set_childs_other by congruence.
        split; [right; split; [tauto|assumption]|].
        intros [(E & _ & _)|(_ & H)]; [congruence|exact H].
    Qed.

    Lemma lk_WF : WF loc h'.
    Proof.
      pose proof lk_alloc as A.
      assert (forall c, nparent (hget h' c) = nparent (hget h c)) as Pp by (intros; apply nparent_set_childs).
      assert (forall c, nname (hget h' c) = nname (hget h c)) as Pn by (intros; apply nname_set_childs).
      assert (length h' = length h) as PL by apply length_set_childs.
      split.
      - rewrite PL; apply W.
      - apply W.
      - rewrite Pp; apply W.
      - intros p k0 E; apply lk_edge in E; destruct E as [(_ & _ & E)|(_ & E)]; [congruence|].
        exact (wf_root_nochild _ _ W _ _ E).
      - intros p; destruct (Nat.eq_dec p x) as [->|Hp].
        + unfold h'; rewrite nchilds_set_childs_same by exact A.
          apply (NoDup_dset String.eqb String.eqb_spec), W.
        + unfold h'; rewrite nchilds_set_childs_other by congruence; apply W.
      - intros p k0 c E; rewrite PL; apply lk_edge in E; destruct E as [(-> & _ & ->)|(_ & E)]; [auto|].
        exact (wf_edge_alloc _ _ W _ _ _ E).
      - intros p k0 c E L; rewrite Pp, Pn; apply lk_edge in E; destruct E as [(-> & _ & ->)|(_ & E)]; [congruence|].
        exact (wf_edge_src _ _ W _ _ _ E L).
      - intros p k0 c E L1 L2; rewrite Pp, Pn; apply lk_edge in E; destruct E as [(-> & _ & ->)|(_ & E)]; [congruence|].
        exact (wf_edge_loc _ _ W _ _ _ E L1 L2).
      - intros p c E; rewrite Pp in E; rewrite PL; exact (wf_parent _ _ W _ _ E).
    Qed.

    Lemma lk_src : forall i, loc i = false -> hget h' i = hget h i.
    Proof. intros i Li; unfold h', set_childs; apply hget_hset_other; congruence. Qed.

    Lemma lk_walk_other : forall q, ~ prefix (q0 ++ [k]) q -> walk h' r q = walk h r q.
    Proof.
      intros q; induction q as [|k1 q IH] using rev_ind; intros Hnp; [reflexivity|].
      rewrite !walk_app, IH.
      - destruct (walk h r q) as [y|] eqn:Ey; [|reflexivity].
        cbn [walk]; assert (dget String.eqb (nchilds (hget h' y)) k1 = dget String.eqb (nchilds (hget h y)) k1) as ->; [|reflexivity].
        unfold h'; destruct (Nat.eq_dec y x) as [->|Hy].
        + rewrite nchilds_set_childs_same by exact lk_alloc.
          apply (dget_dset_other String.eqb String.eqb_spec).
          intros ->; apply Hnp.
          rewrite (walk_inj_loc loc h r W Hr q q0 x Lx Ey Hx); exists []; rewrite app_nil_r; reflexivity.
        + rewrite nchilds_set_childs_other by congruence; reflexivity.
      - intros (s & E); apply Hnp; exists (s ++ [k1]); rewrite E, app_assoc; reflexivity.
    Qed.

    Lemma lk_walk_at : walk h' r (q0 ++ [k]) = Some n.
    Proof.
      apply walk_snoc; exists x; split; [|apply lk_edge; left; auto].
      rewrite lk_walk_other; [exact Hx|].
      intros (s & E); apply (f_equal (@length string)) in E; rewrite !app_length in E; cbn [length] in E; lia.
    Qed.

    Lemma lk_gate : forall q m, gate loc h' r q m ->
      (q = q0 ++ [k] /\ m = n) \/ (gate loc h r q m).
    Proof.
      intros q m (q1 & k1 & y & -> & Hw & Ly & E & Lm).
      assert (walk h r q1 = Some y) as Hw'.
      { rewrite <- lk_walk_other; [exact Hw|]; intros (s & ->).
        rewrite walk_app, lk_walk_at in Hw.
        rewrite (walk_src _ _ _ _ _ lk_WF Ln Hw) in Ly; discriminate. }
      apply lk_edge in E; destruct E as [(-> & -> & ->)|(_ & E)].
      - left; split; [|reflexivity].
        rewrite (walk_inj_loc loc h r W Hr q1 q0 x Lx Hw' Hx); reflexivity.
      - right; exists q1, k1, y; auto.
    Qed.

    Lemma lk_gate_new : gate loc h' r (q0 ++ [k]) n.
    Proof.
      exists q0, k, x; repeat split; auto.
      - rewrite lk_walk_other; [exact Hx|].
        intros (s & E); apply (f_equal (@length string)) in E; rewrite !app_length in E; cbn [length] in E; lia.
      - apply lk_edge; left; auto.
    Qed.

    Lemma lk_gate_old : forall q m, gate loc h r q m -> ~ prefix (q0 ++ [k]) q -> gate loc h' r q m.
    Proof.
      intros q m (q1 & k1 & y & -> & Hw & Ly & E & Lm) Hnp.
      exists q1, k1, y; repeat split; auto.
      - rewrite lk_walk_other; [exact Hw|]; intros (s & ->); apply Hnp.
        exists (s ++ [k1]); rewrite app_assoc; reflexivity.
      - apply lk_edge; right; split; [|exact E]; intros [-> ->].
        apply Hnp; rewrite (walk_inj_loc loc h r W Hr q1 q0 x Lx Hw Hx); exists []; rewrite app_nil_r; reflexivity.
    Qed.
  End Link.

  Definition gates_ok (loc : nat -> bool) h r : Prop :=
    forall q m, gate loc h r q m -> walk h 0 q = Some m.

  (** *** put_node of a source node at its own path *)
  Lemma put_walk_spec : forall ks loc h r x n q0, WF loc h -> local_root loc h r ->
    walk h r q0 = Some x -> loc x = true -> ks <> [] -> gates_ok loc h r ->
    walk h 0 (q0 ++ ks) = Some n ->
    exists loc' h', put_walk h x ks n = h' /\ WF loc' h' /\ agree loc loc' (length h) /\ length h <= length h' /\
      (forall i, length h <= i -> i < length h' -> loc' i = true) /\
      (forall i, nval (hget h' i) = nval (hget h i)) /\
      (forall i, i < length h -> loc i = false -> hget h' i = hget h i) /\
      (forall i, i < r -> hget h' i = hget h i) /\
      nparent (hget h' r) = None /\
      gates_ok loc' h' r /\
      (forall q m, gate loc' h' r q m -> gate loc h r q m \/ q = q0 ++ ks) /\
      (exists q m, prefix q (q0 ++ ks) /\ gate loc' h' r q m) /\
      (forall q m, gate loc h r q m -> prefix (q0 ++ ks) q \/ gate loc' h' r q m).
  Proof.
    induction ks as [|k ks IH]; intros loc h r x n q0 W (Lr & Hr & Hrp) Hx Lx Hne Gok Hn; [congruence|].
    assert (x < length h) as Ax by exact (walk_alloc _ _ _ _ _ W Hr Hx).
    assert (r <= x) as Arx.
    { pose proof (walk_rank _ _ _ _ _ W Hx) as R; unfold rank in R; rewrite Lr, Lx in R; lia. }
    assert (n < length h) as An by (apply (walk_alloc _ _ _ _ _ W (wf_pos _ _ W) Hn)).
    assert (loc n = false) as Ln by (apply (walk_src _ _ _ _ _ W (wf_root _ _ W) Hn)).
    destruct ks as [|k2 ks].
    - (* last key: link *)
      assert (n <> 0) as Hn0.
      { intros ->; apply walk_snoc in Hn; destruct Hn as (p & _ & E); exact (wf_root_nochild _ _ W _ _ E). }
      cbn [put_walk].
      exists loc, (set_childs h x (dset String.eqb (nchilds (hget h x)) k n)).
      pose proof (lk_WF loc h r x n q0 k W Hr Hx Lx An Ln Hn0) as W'.
      split; [reflexivity|]; split; [exact W'|]; split; [intros i _; reflexivity|].
      split; [rewrite length_set_childs; lia|].
      split; [intros i; rewrite length_set_childs; lia|].
      split; [intros i; apply nval_set_childs|].
      split; [intros i _ Li; unfold set_childs; apply hget_hset_other; congruence|].
      split; [intros i Hi; unfold set_childs; apply hget_hset_other; lia|].
      split; [rewrite nparent_set_childs; exact Hrp|].
      pose proof (lk_gate loc h r x n q0 k W Hrp Hr Hx Lx An Ln Hn0) as G1.
      assert (forall i, i < length h -> loc i = false ->
        nchilds (hget (set_childs h x (dset String.eqb (nchilds (hget h x)) k n)) i) = nchilds (hget h i)) as Fr.
      { intros i _ Li; rewrite nchilds_set_childs_other by congruence; reflexivity. }
      split; [|split; [|split]].
      + intros q m G; rewrite (walk_src_frame loc h _ W Fr) by apply W.
        destruct (G1 q m G) as [[-> ->]|G']; [exact Hn|apply Gok; exact G'].
      + intros q m G; destruct (G1 q m G) as [[-> ->]|G']; auto.
      + exists (q0 ++ [k]), n; split; [exists []; rewrite app_nil_r; reflexivity|].
        apply (lk_gate_new loc h r x n q0 k); assumption.
      + intros q m G.
        assert ({prefix (q0 ++ [k]) q} + {~ prefix (q0 ++ [k]) q}) as [P|P].
        { destruct (list_eq_dec string_dec (firstn (length (q0 ++ [k])) q) (q0 ++ [k])) as [E|E].
          - left; exists (skipn (length (q0 ++ [k])) q); rewrite <- E at 1; symmetry; apply firstn_skipn.
          - right; intros (s & ->); apply E; rewrite firstn_app, firstn_all, Nat.sub_diag, firstn_O, app_nil_r; reflexivity. }
        * left; exact P.
        * right; apply (lk_gate_old loc h r x n q0 k); assumption.
    - remember (k2 :: ks) as ks' eqn:Eks.
      assert (ks' <> []) as Hne' by (rewrite Eks; discriminate).
      assert (put_walk h x (k :: ks') n =
        match dget String.eqb (nchilds (hget h x)) k with
        | Some c => put_walk h c ks' n
        | None => let (h', c) := create_child h x k in put_walk h' c ks' n
        end) as Epw by (rewrite Eks; reflexivity).
      rewrite Epw; clear Epw.
      assert (q0 ++ k :: ks' = (q0 ++ [k]) ++ ks') as Eq by (rewrite <- app_assoc; reflexivity).
      rewrite Eq in *.
      destruct (dget String.eqb (nchilds (hget h x)) k) as [c|] eqn:E.
      + assert (edge h x k c) as Ed by exact E.
        assert (walk h r (q0 ++ [k]) = Some c) as Hc by (apply walk_snoc; exists x; auto).
        destruct (loc c) eqn:Lc.
        * apply (IH loc h r c n (q0 ++ [k])); auto; split; auto.
        * (* the local tree already enters the source here *)
          assert (gate loc h r (q0 ++ [k]) c) as G by (exists q0, k, x; auto).
          pose proof (Gok _ _ G) as Hc0.
          rewrite walk_app, Hc0 in Hn.
          rewrite (put_walk_same ks' h c n Hne' Hn).
          exists loc, h; split; [reflexivity|]; split; [exact W|]; split; [intros i _; reflexivity|].
          split; [lia|]; split; [intros; lia|]; split; [auto|]; split; [auto|]; split; [auto|].
          split; [exact Hrp|]; split; [exact Gok|]; split; [auto|]; split; [|auto].
          exists (q0 ++ [k]), c; split; [exists ks'; reflexivity|exact G].
      + destruct (create_child h x k) as [h1 c] eqn:Ec.
        pose proof (cc_WF loc h x k W Ax E) as W1.
        pose proof (cc_ext h x k Ax E) as X1.
        pose proof (cc_length h x k) as L1.
        pose proof (cc_edge h x k Ax E) as Ed1.
        pose proof (cc_walk_inv h x k Ax E) as Wi1.
        pose proof (cc_other h x k) as O1.
        pose proof (cc_id h x k) as Id1.
        pose proof (cc_nval h x k Ax) as Nv1.
        pose proof (cc_parent_name h x k Ax) as Pn1.
        rewrite Ec in W1, X1, L1, Ed1, Wi1, O1, Id1, Nv1, Pn1; cbn [fst snd] in *; subst c.
        set (loc1 := loc_ext loc h x) in *.
        assert (forall i, i < length h -> loc1 i = loc i) as Lo by (intros; apply loc_ext_old; assumption).
        assert (loc1 (length h) = true) as Lnew by (unfold loc1; rewrite loc_ext_new; exact Lx).
        assert (forall q m, gate loc1 h1 r q m <-> gate loc h r q m) as Gs.
        { intros q m; split; intros (q1 & k1 & y & -> & Hw & Ly & Ey & Lm).
          - apply Wi1 in Hw; apply Ed1 in Ey.
            destruct Ey as [Ey|(-> & -> & ->)]; [|congruence].
            destruct (wf_edge_alloc _ _ W _ _ _ Ey) as [Ay Am].
            destruct Hw as [Hw|(_ & _ & _ & ->)]; [|lia].
            exists q1, k1, y; rewrite Lo in Ly, Lm by lia; auto.
          - destruct (wf_edge_alloc _ _ W _ _ _ Ey) as [Ay Am].
            exists q1, k1, y; rewrite !Lo by lia; repeat split; auto.
            + apply (ext_walk _ _ X1); exact Hw.
            + apply Ed1; left; exact Ey. }
        assert (forall q m, walk h 0 q = Some m -> walk h1 0 q = Some m) as Wmono by (intros; apply (ext_walk _ _ X1); assumption).
        destruct (IH loc1 h1 r (length h) n (q0 ++ [k])) as
          (loc' & h' & E1 & W' & A & Ln' & N & Nv & F & Fr & Rp & Go & Ga & Gb & Gc).
        * exact W1.
        * split; [rewrite Lo by lia; exact Lr|]; split; [lia|]; destruct (Pn1 r) as [-> _]; [lia|exact Hrp].
        * apply walk_snoc; exists x; split; [apply (ext_walk _ _ X1); exact Hx|apply Ed1; right; auto].
        * exact Lnew.
        * exact Hne'.
        * intros q m G; apply Wmono, Gok, Gs; exact G.
        * apply Wmono; exact Hn.
        * exists loc', h'; split; [exact E1|]; split; [exact W'|].
          split; [intros i Hi; rewrite A by lia; apply Lo; exact Hi|].
          split; [lia|].
          split; [intros i Hi1 Hi2; destruct (Nat.eq_dec i (length h)) as [->|Hni];
                  [rewrite A by lia; exact Lnew|apply N; lia]|].
          split; [intros i; rewrite Nv; apply Nv1|].
          split; [intros i Hi Li; rewrite F; [|lia|rewrite Lo by exact Hi; exact Li]; apply O1; [congruence|lia]|].
          split; [intros i Hi; rewrite Fr by exact Hi; apply O1; lia|].
          split; [exact Rp|]; split; [exact Go|].
          split; [intros q m G; destruct (Ga q m G) as [G'|G']; [left; apply Gs; exact G'|right; exact G']|].
          split; [exact Gb|].
          intros q m G; apply Gc, Gs; exact G.
  Qed.
End Project.
