(** What the mutating operations do to a well-formed heap. *)
From Verif Require Import Base Tree_Model Tree_Spec Tree_Heap.

Section Ops.
  Context {V : Type}.
  Implicit Types (h : heap V).

  (** [h'] is [h] with additional, empty nodes. *)
  Record ext h h' : Prop := {
    ext_len : length h <= length h';
    ext_lookup : forall y q, lookup h' y q = lookup h y q;
    ext_walk : forall y q m, walk h y q = Some m -> walk h' y q = Some m
  }.

  Lemma ext_refl : forall h, ext h h.
  Proof. intros h; split; auto. Qed.
  Lemma ext_trans : forall h1 h2 h3, ext h1 h2 -> ext h2 h3 -> ext h1 h3.
  Proof.
    intros h1 h2 h3 [a b c] [a' b' c']; split; try lia.
    - intros; rewrite b', b; reflexivity.
    - intros; apply c', c; assumption.
  Qed.

  Definition agree (loc loc' : nat -> bool) (n : nat) : Prop := forall i, i < n -> loc' i = loc i.

  (** *** create_child *)
  Section Create.
    Variables (loc : nat -> bool) (h : heap V) (p : nat) (k : string).
    Hypothesis W : WF loc h.
    Hypothesis Hp : p < length h.
    Hypothesis Hnone : dget String.eqb (nchilds (hget h p)) k = None.

    Let h' := fst (create_child h p k).

    Lemma cc_length : length h' = S (length h).
    Proof using. clear W Hp Hnone; unfold h', create_child; cbn [fst]; rewrite app_length, length_set_childs; cbn [length]; lia. Qed.

    Lemma cc_id : snd (create_child h p k) = length h.
    Proof. reflexivity. Qed.

    Lemma cc_new : hget h' (length h) = mkNode None [] (Some p) (Some k).
    Proof.
      unfold h', create_child; cbn [fst].
      pose proof (hget_app_new (set_childs h p (dset String.eqb (nchilds (hget h p)) k (length h)))
                    (mkNode None [] (Some p) (Some k))) as E.
      rewrite length_set_childs in E; exact E.
    Qed.

    Lemma cc_other : forall i, i <> p -> i <> length h -> hget h' i = hget h i.
    Proof using.
      clear W Hp Hnone; intros i Hi Hl; unfold h', create_child; cbn [fst].
      destruct (Nat.lt_ge_cases i (length h)) as [L|L].
      - rewrite hget_app_old by (rewrite length_set_childs; exact L).
        unfold set_childs; apply hget_hset_other; congruence.
      - rewrite (hget_out h i) by exact L; apply hget_out.
        rewrite app_length, length_set_childs; cbn [length]; lia.
    Qed.

    Lemma cc_p_childs : nchilds (hget h' p) = dset String.eqb (nchilds (hget h p)) k (length h).
    Proof.
      unfold h', create_child; cbn [fst].
      rewrite hget_app_old by (rewrite length_set_childs; exact Hp).
      apply nchilds_set_childs_same; exact Hp.
    Qed.

    Lemma cc_p_rest : nval (hget h' p) = nval (hget h p) /\ nparent (hget h' p) = nparent (hget h p)
                      /\ nname (hget h' p) = nname (hget h p).
    Proof.
      unfold h', create_child; cbn [fst].
      rewrite hget_app_old by (rewrite length_set_childs; exact Hp).
      rewrite nval_set_childs, nparent_set_childs, nname_set_childs; auto.
    Qed.

    Lemma cc_edge : forall x k' c, edge h' x k' c <-> edge h x k' c \/ (x = p /\ k' = k /\ c = length h).
    Proof.
      intros x k' c; unfold edge.
      destruct (Nat.eq_dec x p) as [->|Hx].
      - rewrite cc_p_childs, (dget_dset String.eqb String.eqb_spec).
        destruct (String.eqb_spec k' k) as [->|Hk].
        + rewrite Hnone; split; [intros E; injection E as <-; right; auto|].
          intros [E|(_ & _ & ->)]; [discriminate|reflexivity].
        + split; [auto|]; intros [E|(_ & E & _)]; [exact E|congruence].
      - destruct (Nat.eq_dec x (length h)) as [->|Hl].
        + rewrite cc_new, (hget_out h (length h)) by lia; cbn [nchilds dget dummy].
          split; [discriminate|]; intros [E|(E & _)]; [discriminate|congruence].
        + rewrite cc_other by assumption; split; [auto|]; intros [E|(E & _)]; [exact E|congruence].
    Qed.

    Definition loc_ext : nat -> bool := fun i => if Nat.eqb i (length h) then loc p else loc i.

    Lemma loc_ext_old : forall i, i < length h -> loc_ext i = loc i.
    Proof using. clear W Hp Hnone; intros i Hi; unfold loc_ext; destruct (Nat.eqb_spec i (length h)); [lia|reflexivity]. Qed.
    Lemma loc_ext_new : loc_ext (length h) = loc p.
    Proof. unfold loc_ext; rewrite Nat.eqb_refl; reflexivity. Qed.

    Lemma cc_parent_name : forall c, c <> length h ->
       nparent (hget h' c) = nparent (hget h c) /\ nname (hget h' c) = nname (hget h c).
    Proof.
      intros c Hc; destruct (Nat.eq_dec c p) as [->|Hcp].
      - split; apply cc_p_rest.
      - rewrite cc_other by assumption; auto.
    Qed.

    Lemma cc_WF : WF loc_ext h'.
    Proof.
      assert (P0 := wf_pos _ _ W).
      split.
      - rewrite cc_length; lia.
      - rewrite loc_ext_old by lia; apply (wf_root _ _ W).
      - destruct (cc_parent_name 0) as [-> _]; [lia|]; apply (wf_root_parent _ _ W).
      - intros x k0 E; apply cc_edge in E; destruct E as [E|(_ & _ & E)]; [exact (wf_root_nochild _ _ W _ _ E)|lia].
      - intros x. destruct (Nat.eq_dec x p) as [->|Hx].
        + rewrite cc_p_childs; apply (NoDup_dset String.eqb String.eqb_spec); apply (wf_nodup _ _ W).
        + destruct (Nat.eq_dec x (length h)) as [->|Hl].
          * rewrite cc_new; constructor.
          * rewrite cc_other by assumption; apply (wf_nodup _ _ W).
      - intros x k0 c E; rewrite cc_length; apply cc_edge in E; destruct E as [E|(-> & _ & ->)].
        + apply (wf_edge_alloc _ _ W) in E; lia.
        + lia.
      - intros x k0 c E L; apply cc_edge in E; destruct E as [E|(-> & -> & ->)].
        + destruct (wf_edge_alloc _ _ W _ _ _ E) as [Hx Hc].
          rewrite loc_ext_old in L by exact Hx; rewrite loc_ext_old by exact Hc.
          destruct (cc_parent_name c) as [-> ->]; [lia|].
          apply (wf_edge_src _ _ W); assumption.
        + rewrite loc_ext_new; rewrite loc_ext_old in L by exact Hp.
          rewrite cc_new; cbn [nparent nname]; auto.
      - intros x k0 c E L1 L2; apply cc_edge in E; destruct E as [E|(-> & -> & ->)].
        + destruct (wf_edge_alloc _ _ W _ _ _ E) as [Hx Hc].
          rewrite loc_ext_old in L1 by exact Hx; rewrite loc_ext_old in L2 by exact Hc.
          destruct (cc_parent_name c) as [-> ->]; [lia|].
          eapply (wf_edge_loc _ _ W); eassumption.
        + rewrite cc_new; split; reflexivity.
      - intros x c E; rewrite cc_length; destruct (Nat.eq_dec c (length h)) as [->|Hc].
        + rewrite cc_new in E; cbn [nparent] in E; injection E as <-.
          rewrite loc_ext_new, loc_ext_old by exact Hp; repeat split; lia.
        + destruct (cc_parent_name c Hc) as [E' _]; rewrite E' in E.
          apply (wf_parent _ _ W) in E; rewrite !loc_ext_old by lia; intuition lia.
    Qed.

    Lemma cc_walk_inv : forall q y m, walk h' y q = Some m ->
      walk h y q = Some m \/ exists q1, walk h y q1 = Some p /\ q = q1 ++ [k] /\ m = length h.
    Proof.
      induction q as [|k0 q IH]; intros y m H.
      - left; exact H.
      - apply walk_cons in H; destruct H as (c & E & H); apply cc_edge in E; destruct E as [E|(-> & -> & ->)].
        + apply IH in H; destruct H as [H|(q1 & H1 & -> & ->)].
          * left; apply walk_cons; exists c; auto.
          * right; exists (k0 :: q1); repeat split; try reflexivity.
            apply walk_cons; exists c; auto.
        + right; exists []; split; [reflexivity|].
          destruct q as [|k1 q]; [cbn [walk] in H; injection H as <-; split; reflexivity|].
          apply walk_cons in H; destruct H as (c & E & _); unfold edge in E.
          rewrite cc_new in E; discriminate.
    Qed.

    Lemma cc_walk : forall q y m, walk h y q = Some m -> walk h' y q = Some m.
    Proof.
      induction q as [|k0 q IH]; intros y m H; [exact H|].
      apply walk_cons in H; destruct H as (c & E & H); apply walk_cons; exists c; split.
      - apply cc_edge; left; exact E.
      - apply IH; exact H.
    Qed.

    Lemma cc_nval : forall i, nval (hget h' i) = nval (hget h i).
    Proof.
      intros i; destruct (Nat.eq_dec i p) as [->|Hi]; [apply cc_p_rest|].
      destruct (Nat.eq_dec i (length h)) as [->|Hl].
      - rewrite cc_new, (hget_out h (length h)) by lia; reflexivity.
      - rewrite cc_other by assumption; reflexivity.
    Qed.

    Lemma cc_ext : ext h h'.
    Proof.
      split; [rewrite cc_length; lia| |intros; apply cc_walk; assumption].
      intros y q; unfold lookup; destruct (walk h' y q) as [m|] eqn:E.
      - apply cc_walk_inv in E; destruct E as [E|(q1 & E & -> & ->)].
        + rewrite E; apply cc_nval.
        + rewrite cc_new; cbn [nval].
          destruct (walk h y (q1 ++ [k])) as [m|] eqn:E2; [|reflexivity].
          apply walk_snoc in E2; destruct E2 as (p' & E1 & E2); unfold edge in E2; congruence.
      - destruct (walk h y q) as [m|] eqn:E2; [|reflexivity].
        apply cc_walk in E2; congruence.
    Qed.
  End Create.

  (** *** walk_create from a node of the tree *)
  Definition prefix (a b : path) : Prop := exists c, b = a ++ c.

  Lemma walk_create_spec : forall ks loc h x, WF loc h -> x < length h -> loc x = false ->
    exists loc' h' n, walk_create h x ks = (h', n) /\ WF loc' h' /\ agree loc loc' (length h) /\ ext h h' /\
      (forall i, length h <= i -> i < length h' -> loc' i = false) /\
      (forall i, i < length h -> loc i = true -> hget h' i = hget h i) /\
      walk h' x ks = Some n /\ n < length h' /\
      (forall q0 q m, walk h 0 q0 = Some x -> walk h' 0 q = Some m ->
         walk h 0 q = Some m \/ exists ks1, prefix ks1 ks /\ q = q0 ++ ks1) /\
      (forall p k c, edge h p k c -> edge h' p k c).
  Proof.
    induction ks as [|k ks IH]; intros loc h x W Hx Lx; cbn [walk_create].
    - exists loc, h, x; split; [reflexivity|]; split; [exact W|]; split; [intros i _; reflexivity|].
      split; [apply ext_refl|]; split; [intros; lia|]; split; [auto|]; split; [reflexivity|]; split; [exact Hx|]; auto.
    - destruct (dget String.eqb (nchilds (hget h x)) k) as [c|] eqn:E.
      + assert (edge h x k c) as Ed by exact E.
        destruct (wf_edge_alloc _ _ W _ _ _ Ed) as [_ Hc].
        destruct (wf_edge_src _ _ W _ _ _ Ed Lx) as [Lc _].
        destruct (IH loc h c W Hc Lc) as (loc' & h' & n & E1 & W' & A & X & N & F & Wk & Hn & Inv & Me).
        exists loc', h', n; split; [exact E1|]; split; [exact W'|]; split; [exact A|]; split; [exact X|].
        split; [exact N|]; split; [exact F|]; split.
        { apply walk_cons; exists c; split; [apply Me; exact Ed|exact Wk]. }
        split; [exact Hn|]; split; [|exact Me].
        intros q0 q m Hq0 Hq. destruct (Inv (q0 ++ [k]) q m) as [H|(ks1 & (ks2 & ->) & ->)].
        * apply walk_snoc; exists x; auto.
        * exact Hq.
        * left; exact H.
        * right; exists (k :: ks1); split; [exists ks2; reflexivity|].
          rewrite <- app_assoc; reflexivity.
      + destruct (create_child h x k) as [h1 c] eqn:Ec.
        pose proof (cc_WF loc h x k W Hx E) as W1.
        pose proof (cc_ext h x k Hx E) as X1.
        pose proof (cc_length h x k) as L1.
        pose proof (cc_edge h x k Hx E) as Ed1.
        pose proof (cc_walk_inv h x k Hx E) as Wi1.
        pose proof (cc_other h x k) as O1.
        pose proof (cc_id h x k) as Id1.
        rewrite Ec in W1, X1, L1, Ed1, Wi1, O1, Id1; cbn [fst snd] in *; subst c.
        destruct (IH (loc_ext loc h x) h1 (length h) W1) as (loc' & h' & n & E1 & W' & A & X & N & F & Wk & Hn & Inv & Me).
        { lia. }
        { rewrite loc_ext_new; exact Lx. }
        exists loc', h', n; split; [exact E1|]; split; [exact W'|]; split; [|split; [|split; [|split; [|split; [|split; [|split]]]]]].
        * intros i Hi; rewrite A by lia; apply loc_ext_old; exact Hi.
        * apply (ext_trans _ h1); assumption.
        * intros i Hi1 Hi2; destruct (Nat.eq_dec i (length h)) as [->|Hne].
          -- rewrite A by lia; rewrite loc_ext_new; exact Lx.
          -- apply N; lia.
        * intros i Hi Li; rewrite F; [|lia|rewrite loc_ext_old by exact Hi; exact Li].
          apply O1; [congruence|lia].
        * apply walk_cons; exists (length h); split; [|exact Wk].
          apply Me, Ed1; right; auto.
        * exact Hn.
        * intros q0 q m Hq0 Hq. destruct (Inv (q0 ++ [k]) q m) as [H|(ks1 & (ks2 & ->) & ->)].
          -- apply walk_snoc; exists x; split; [apply (ext_walk _ _ X1); exact Hq0|apply Ed1; right; auto].
          -- exact Hq.
          -- apply Wi1 in H; destruct H as [H|(q1 & H1 & -> & ->)]; [left; exact H|].
             right; exists [k]; split; [exists ks; reflexivity|].
             rewrite (walk_inj _ _ W _ _ _ H1 Hq0); reflexivity.
          -- right; exists (k :: ks1); split; [exists ks2; reflexivity|].
             rewrite <- app_assoc; reflexivity.
        * intros p0 k0 c0 E0; apply Me, Ed1; left; exact E0.
  Qed.

  (** *** set_val *)
  Lemma edge_set_val : forall h i v p k c, edge (set_val h i v) p k c <-> edge h p k c.
  Proof. intros; unfold edge; rewrite nchilds_set_val; tauto. Qed.

  Lemma WF_set_val : forall loc h i v, WF loc h -> WF loc (set_val h i v).
  Proof.
    intros loc h i v W; split; intros *; rewrite ?length_set_val, ?nparent_set_val, ?nname_set_val, ?nchilds_set_val, ?edge_set_val;
      apply W.
  Qed.

  Lemma lookup_set_val : forall h i v y q, i < length h ->
    lookup (set_val h i v) y q =
    match walk h y q with Some n => if Nat.eqb n i then v else nval (hget h n) | None => None end.
  Proof.
    intros h i v y q Hi; unfold lookup; rewrite walk_set_val.
    destruct (walk h y q) as [n|]; [|reflexivity].
    destruct (Nat.eqb_spec n i) as [->|Hn].
    - apply nval_set_val_same; exact Hi.
    - apply nval_set_val_other; congruence.
  Qed.

  (** *** pruning *)
  Record prune h h' : Prop := {
    pr_len : length h' = length h;
    pr_val : forall i, nval (hget h' i) = nval (hget h i);
    pr_parent : forall i, nparent (hget h' i) = nparent (hget h i);
    pr_name : forall i, nname (hget h' i) = nname (hget h i);
    pr_sub : forall p k c, edge h' p k c -> edge h p k c;
    pr_keep : forall p k c, edge h p k c -> edge h' p k c \/ barren h c;
    pr_nodup : forall p, NoDup (dkeys (nchilds (hget h p))) -> NoDup (dkeys (nchilds (hget h' p)))
  }.

  Lemma prune_walk : forall h h', prune h h' -> forall q y m, walk h' y q = Some m -> walk h y q = Some m.
  Proof.
    intros h h' P q; induction q as [|k q IH]; intros y m H; [exact H|].
    apply walk_cons in H; destruct H as (c & E & H); apply walk_cons; exists c; split.
    - apply (pr_sub _ _ P); exact E.
    - apply IH; exact H.
  Qed.

  Lemma prune_lookup : forall h h', prune h h' -> forall q y, lookup h' y q = lookup h y q.
  Proof.
    intros h h' P q; induction q as [|k q IH]; intros y.
    - unfold lookup; cbn [walk]; apply (pr_val _ _ P).
    - unfold lookup; cbn [walk].
      destruct (dget String.eqb (nchilds (hget h y)) k) as [c|] eqn:E.
      + assert (edge h y k c) as E' by exact E.
        destruct (pr_keep _ _ P _ _ _ E') as [E1|B].
        * unfold edge in E1; rewrite E1. exact (IH c).
        * destruct (dget String.eqb (nchilds (hget h' y)) k) as [c'|] eqn:E1.
          -- assert (c' = c) as -> by (apply (pr_sub _ _ P) in E1; unfold edge in E1; congruence).
             exact (IH c).
          -- symmetry; exact (B q).
      + destruct (dget String.eqb (nchilds (hget h' y)) k) as [c'|] eqn:E1; [|reflexivity].
        apply (pr_sub _ _ P) in E1; unfold edge in E1; congruence.
  Qed.

  Lemma prune_refl : forall h, prune h h.
  Proof. intros h; split; auto. Qed.

  Lemma prune_trans : forall h1 h2 h3, prune h1 h2 -> prune h2 h3 -> prune h1 h3.
  Proof.
    intros h1 h2 h3 P Q; split.
    - rewrite (pr_len _ _ Q); apply P.
    - intros; rewrite (pr_val _ _ Q); apply P.
    - intros; rewrite (pr_parent _ _ Q); apply P.
    - intros; rewrite (pr_name _ _ Q); apply P.
    - intros p k c H; apply (pr_sub _ _ P), (pr_sub _ _ Q); exact H.
    - intros p k c H; destruct (pr_keep _ _ P _ _ _ H) as [H1|B]; [|right; exact B].
      destruct (pr_keep _ _ Q _ _ _ H1) as [H2|B]; [left; exact H2|right].
      intros q; rewrite <- (prune_lookup _ _ P); apply B.
    - intros p H; apply (pr_nodup _ _ Q), (pr_nodup _ _ P); exact H.
  Qed.

  Lemma prune_WF : forall loc h h', WF loc h -> prune h h' -> WF loc h'.
  Proof.
    intros loc h h' W P; split.
    - rewrite (pr_len _ _ P); apply W.
    - apply W.
    - rewrite (pr_parent _ _ P); apply W.
    - intros p k H; apply (pr_sub _ _ P) in H; exact (wf_root_nochild _ _ W _ _ H).
    - intros p; apply (pr_nodup _ _ P), W.
    - intros p k c H; apply (pr_sub _ _ P) in H; rewrite (pr_len _ _ P); apply (wf_edge_alloc _ _ W _ _ _ H).
    - intros p k c H L; apply (pr_sub _ _ P) in H; rewrite (pr_parent _ _ P), (pr_name _ _ P).
      apply (wf_edge_src _ _ W _ _ _ H L).
    - intros p k c H L1 L2; apply (pr_sub _ _ P) in H; rewrite (pr_parent _ _ P), (pr_name _ _ P).
      apply (wf_edge_loc _ _ W _ _ _ H L1 L2).
    - intros p c H; rewrite (pr_parent _ _ P) in H; rewrite (pr_len _ _ P); apply (wf_parent _ _ W _ _ H).
  Qed.

  Lemma scan_spec : forall loc h b cs, WF loc h ->
    (forall k c, In (k, c) cs -> c < length h /\ c <> b) -> NoDup (dkeys cs) ->
    exists names, scan h b cs = SDel names /\
      (forall k, In k names <-> exists c, In (k, c) cs /\ barren h c).
  Proof.
    intros loc h b cs W; induction cs as [|[k c] r IH]; intros H Hnd; cbn [scan].
    - exists []; split; [reflexivity|]; intros k; split; [intros []|intros (c & [] & _)].
    - destruct (H k c (or_introl eq_refl)) as [Hc Hb].
      destruct (Nat.eqb_spec c b); [contradiction|].
      destruct (tree_len_spec loc h c W Hc) as (m & Em & Hm); rewrite Em.
      inversion Hnd as [|x l Hni Hnd']; subst.
      destruct IH as (names & En & Hn).
      { intros k0 c0 Hi; apply (H k0 c0); right; exact Hi. }
      { exact Hnd'. }
      rewrite En; eexists; split; [reflexivity|].
      intros k0; destruct (Nat.eqb_spec m 0) as [Hz|Hz]; cbn [In]; rewrite Hn.
      + split.
        * intros [->|(c0 & Hi & B)]; [exists c; split; [left; reflexivity|apply Hm; exact Hz]|].
          exists c0; split; [right; exact Hi|exact B].
        * intros (c0 & [E|Hi] & B); [injection E as -> ->; left; reflexivity|right; exists c0; auto].
      + split.
        * intros (c0 & Hi & B); exists c0; split; [right; exact Hi|exact B].
        * intros (c0 & [E|Hi] & B); [injection E as -> ->; exfalso; apply Hz, Hm; exact B|exists c0; auto].
  Qed.

  Lemma fold_ddel_get : forall names (d : list (string * nat)) k, NoDup (dkeys d) ->
    NoDup (dkeys (fold_left (ddel String.eqb) names d)) /\
    dget String.eqb (fold_left (ddel String.eqb) names d) k =
      if existsb (String.eqb k) names then None else dget String.eqb d k.
  Proof.
    induction names as [|x names IH]; intros d k Hnd; cbn [fold_left existsb]; [auto|].
    destruct (IH (ddel String.eqb d x) k) as [H1 H2].
    { apply NoDup_ddel; exact Hnd. }
    split; [exact H1|]; rewrite H2.
    destruct (String.eqb_spec k x) as [->|Hne]; cbn [orb].
    - rewrite (dget_ddel_same String.eqb String.eqb_spec) by exact Hnd.
      destruct (existsb (String.eqb x) names); reflexivity.
    - rewrite (dget_ddel_other String.eqb String.eqb_spec) by congruence; reflexivity.
  Qed.

  (** Strict ancestors along parent pointers. *)
  Inductive anc h : nat -> nat -> Prop :=
  | anc_one : forall p n, nparent (hget h n) = Some p -> anc h p n
  | anc_more : forall p m n, nparent (hget h n) = Some m -> anc h p m -> anc h p n.

  Lemma anc_lt : forall loc h p n, WF loc h -> anc h p n -> p < n.
  Proof.
    intros loc h p n W H; induction H as [p n H|p m n H _ IH]; apply (wf_parent _ _ W) in H; lia.
  Qed.

  Definition clean h p : Prop := forall k c, edge h p k c -> ~ barren h c.

  Lemma prune_step : forall h p names, p < length h -> NoDup (dkeys (nchilds (hget h p))) ->
    (forall k, In k names <-> exists c, In (k, c) (nchilds (hget h p)) /\ barren h c) ->
    let h1 := set_childs h p (fold_left (ddel String.eqb) names (nchilds (hget h p))) in
    prune h h1 /\ clean h1 p /\ (forall x, x <> p -> nchilds (hget h1 x) = nchilds (hget h x)).
  Proof.
    intros h p names Hp Hnd Hnames h1.
    assert (forall k, existsb (String.eqb k) names = true <-> In k names) as Ex.
    { intros k; rewrite existsb_exists; split.
      - intros (x & Hi & E); apply String.eqb_eq in E; subst; exact Hi.
      - intros Hi; exists k; split; [exact Hi|apply String.eqb_refl]. }
    assert (forall k c, edge h1 p k c <-> edge h p k c /\ ~ In k names) as Ep.
    { intros k c; unfold edge, h1; rewrite nchilds_set_childs_same by exact Hp.
      destruct (fold_ddel_get names (nchilds (hget h p)) k Hnd) as [_ ->].
      destruct (existsb (String.eqb k) names) eqn:E.
      - apply Ex in E; split; [discriminate|intros [_ H]; contradiction].
      - split; [|tauto]; intros H; split; [exact H|]; intros Hi; apply Ex in Hi; congruence. }
    assert (forall x, x <> p -> nchilds (hget h1 x) = nchilds (hget h x)) as Ox.
    { intros x Hx; unfold h1; apply nchilds_set_childs_other; congruence. }
    assert (prune h h1) as P.
    { split.
      - apply length_set_childs.
      - intros; apply nval_set_childs.
      - intros; apply nparent_set_childs.
      - intros; apply nname_set_childs.
      - intros x k c E; destruct (Nat.eq_dec x p) as [->|Hx]; [apply Ep in E; tauto|].
        unfold edge in *; rewrite Ox in E by exact Hx; exact E.
      - intros x k c E; destruct (Nat.eq_dec x p) as [->|Hx].
        + destruct (in_dec string_dec k names) as [Hi|Hi].
          * right; apply Hnames in Hi; destruct Hi as (c' & Hi & B).
            apply (In_dget String.eqb String.eqb_spec) in Hi; [|exact Hnd].
            unfold edge in E; assert (c' = c) as -> by congruence; exact B.
          * left; apply Ep; auto.
        + left; unfold edge in *; rewrite Ox by exact Hx; exact E.
      - intros x Hx; destruct (Nat.eq_dec x p) as [->|Hne].
        + unfold h1; rewrite nchilds_set_childs_same by exact Hp.
          apply (fold_ddel_get names _ EmptyString Hnd).
        + rewrite Ox by exact Hne; exact Hx. }
    split; [exact P|]; split; [|exact Ox].
    intros k c E B; apply Ep in E; destruct E as [E Hni]; apply Hni, Hnames.
    exists c; split; [apply (dget_In String.eqb String.eqb_spec); exact E|].
    intros q; rewrite <- (prune_lookup _ _ P); apply B.
  Qed.

  Lemma cut_spec : forall fuel loc h n b, WF loc h -> n < length h -> n < fuel ->
    (forall p k, ~ edge h p k b) ->
    exists h', cut fuel h n b = Ok h' /\ prune h h' /\
      (forall p, anc h p n -> clean h' p) /\
      (forall x, ~ anc h x n -> nchilds (hget h' x) = nchilds (hget h x)).
  Proof.
    induction fuel as [|f IH]; intros loc h n b W Hn Hf Hb; [lia|].
    cbn [cut]; destruct (nparent (hget h n)) as [p|] eqn:Ep.
    - destruct (wf_parent _ _ W _ _ Ep) as (Hlt & _ & _).
      destruct (scan_spec loc h b (nchilds (hget h p)) W) as (names & Es & Hnames).
      { intros k c Hi; apply (In_dget String.eqb String.eqb_spec) in Hi; [|apply (wf_nodup _ _ W)].
        split; [apply (wf_edge_alloc _ _ W p k c Hi)|]; intros ->; exact (Hb p k Hi). }
      { apply (wf_nodup _ _ W). }
      rewrite Es.
      destruct (prune_step h p names) as (P1 & C1 & O1); [lia|apply (wf_nodup _ _ W)|exact Hnames|].
      set (h1 := set_childs h p (fold_left (ddel String.eqb) names (nchilds (hget h p)))) in *.
      destruct (IH loc h1 p b) as (h' & E' & P' & C' & O').
      { exact (prune_WF _ _ _ W P1). }
      { rewrite (pr_len _ _ P1); lia. }
      { lia. }
      { intros p0 k0 E; apply (pr_sub _ _ P1) in E; exact (Hb _ _ E). }
      assert (forall x y, anc h1 x y <-> anc h x y) as A.
      { intros x y; split; intros H; induction H as [a c H|a m c H _ IH0].
        - apply anc_one; rewrite <- (pr_parent _ _ P1); exact H.
        - apply (anc_more _ _ m); [rewrite <- (pr_parent _ _ P1); exact H|exact IH0].
        - apply anc_one; rewrite (pr_parent _ _ P1); exact H.
        - apply (anc_more _ _ m); [rewrite (pr_parent _ _ P1); exact H|exact IH0]. }
      exists h'; split; [exact E'|]; split; [exact (prune_trans _ _ _ P1 P')|]; split.
      + intros x Hx; inversion Hx as [a c H|a m c H H2]; subst.
        * assert (x = p) as -> by congruence.
          intros k c E; unfold edge in E; rewrite O' in E.
          -- intros B; apply (C1 k c E); intros q; rewrite <- (prune_lookup _ _ P'); apply B.
          -- intros Ha; apply A in Ha; apply (anc_lt _ _ _ _ W) in Ha; lia.
        * assert (m = p) as -> by congruence; apply C', A; exact H2.
      + intros x Hx; rewrite O'.
        * apply O1; intros ->; apply Hx, anc_one; exact Ep.
        * intros Ha; apply A in Ha; apply Hx; apply (anc_more _ _ p); assumption.
    - exists h; split; [reflexivity|]; split; [apply prune_refl|]; split.
      + intros x Hx; inversion Hx as [a c H|a m c H H2]; subst; congruence.
      + auto.
  Qed.
End Ops.
