(** The modelled tree against the specification of Tree_Spec.v. *)
From Verif Require Import Base Tree_Model Tree_Spec Tree_Heap Tree_Ops Tree_Project.

(** *** Keys and paths *)
Lemma split_on_nonempty : forall c s, split_on c s <> [].
Proof.
  intros c; induction s as [|a r IH]; cbn [split_on]; [discriminate|].
  destruct (Ascii.eqb a c); [discriminate|]; destruct (split_on c r); [discriminate|discriminate].
Qed.

Lemma split_no_dot : forall s, forallb no_dot (split_on dot s) = true.
Proof.
  induction s as [|a r IH]; cbn [split_on forallb no_dot]; [reflexivity|].
  destruct (Ascii.eqb a dot) eqn:E; cbn [forallb no_dot]; [exact IH|].
  destruct (split_on dot r) as [|w ws]; cbn [forallb no_dot] in *; rewrite E; cbn [negb andb]; [reflexivity|exact IH].
Qed.

Lemma join_split : forall s, join_dots (split_on dot s) = s.
Proof.
  induction s as [|a r IH]; cbn [split_on]; [reflexivity|].
  pose proof (split_on_nonempty dot r) as Hne.
  destruct (Ascii.eqb_spec a dot) as [->|Ha].
  - destruct (split_on dot r) as [|w ws] eqn:E; [congruence|].
    cbn [join_dots append]; cbn [join_dots] in IH; rewrite IH; reflexivity.
  - destruct (split_on dot r) as [|w ws] eqn:E; [congruence|].
    destruct ws as [|w2 ws]; cbn [join_dots append] in *; rewrite <- IH; reflexivity.
Qed.

Lemma split_app_dot : forall x s, no_dot x = true -> split_on dot (x ++ String dot s) = x :: split_on dot s.
Proof.
  induction x as [|a r IH]; intros s H; cbn [append split_on].
  - replace (Ascii.eqb dot dot) with true by reflexivity; reflexivity.
  - cbn [no_dot] in H; apply andb_prop in H; destruct H as [H1 H2].
    apply negb_true_iff in H1; rewrite H1, IH by exact H2; reflexivity.
Qed.

Lemma split_plain : forall x, no_dot x = true -> split_on dot x = [x].
Proof.
  induction x as [|a r IH]; intros H; cbn [split_on]; [reflexivity|].
  cbn [no_dot] in H; apply andb_prop in H; destruct H as [H1 H2].
  apply negb_true_iff in H1; rewrite H1, IH by exact H2; reflexivity.
Qed.

Lemma split_join : forall p, p <> [] -> forallb no_dot p = true -> split_on dot (join_dots p) = p.
Proof.
  induction p as [|x r IH]; intros Hne H; [congruence|].
  cbn [forallb] in H; apply andb_prop in H; destruct H as [H1 H2].
  destruct r as [|y r]; [apply split_plain; exact H1|].
  change (join_dots (x :: y :: r)) with (x ++ String dot (join_dots (y :: r)))%string.
  rewrite split_app_dot by exact H1; rewrite IH; [reflexivity|discriminate|exact H2].
Qed.

Lemma sep_split_two : split_on dot sep = [EmptyString; EmptyString].
Proof. reflexivity. Qed.

Lemma parse_denotes : forall kc k p, parse kc k = Some p <-> denotes kc k p.
Proof.
  intros kc [s|] p; unfold parse, denotes; [|split; [discriminate|intros []]]. change sep with "."%string.
  destruct (String.eqb_spec s "."%string) as [->|Hs].
  - split; [intros E; injection E as <-; left; auto|].
    intros [[_ ->]|(H & _)]; [reflexivity|congruence].
  - split.
    + destruct (forallb kc (split_on dot s)) eqn:E; [|discriminate].
      intros H; injection H as <-; right; repeat split; auto.
      * apply split_on_nonempty.
      * symmetry; apply join_split.
      * apply split_no_dot.
    + intros [[E _]|(_ & Hne & -> & Hd & Hk)]; [congruence|].
      rewrite split_join by assumption; rewrite Hk; reflexivity.
Qed.

Lemma path_eqb_spec : forall a b, reflect (a = b) (path_eqb a b).
Proof.
  induction a as [|x a IH]; intros [|y b]; cbn [path_eqb]; try (constructor; congruence).
  destruct (String.eqb_spec x y) as [->|Hn]; cbn [andb]; [|constructor; congruence].
  destruct (IH b) as [->|Hn]; constructor; congruence.
Qed.

Section Proofs.
  Context {V : Type}.
  Variable kc : string -> bool.
  Variable vc : V -> bool.
  Implicit Types (h : heap V).

  Lemma keys_cases : forall k,
    (parse kc k = None /\ get_converted_keys kc k = Err EKeyError /\ k <> KStr sep) \/
    (k = KStr sep /\ parse kc k = Some [] /\ get_converted_keys kc k = Ok [sep]) \/
    (exists p, p <> [] /\ k <> KStr sep /\ parse kc k = Some p /\ get_converted_keys kc k = Ok p
               /\ forallb no_dot p = true).
  Proof.
    intros [s|]; unfold parse, get_converted_keys; [|left; repeat split; congruence].
    destruct (String.eqb_spec s sep) as [->|Hs]; [right; left; auto|].
    destruct (forallb kc (split_on dot s)) eqn:E.
    - right; right; exists (split_on dot s); repeat split; try congruence.
      + apply split_on_nonempty.
      + apply split_no_dot.
    - left; repeat split; congruence.
  Qed.

  Lemma nodot_single : forall p k, forallb no_dot p = true -> p = [k] -> String.eqb k sep = false.
  Proof.
    intros p k H ->; destruct (String.eqb_spec k sep) as [->|]; [discriminate|reflexivity].
  Qed.

  Lemma search_node_path : forall h x p, p <> [] -> forallb no_dot p = true -> search_node h x p = walk h x p.
  Proof.
    intros h x [|k [|k2 r]] Hne H; [congruence| |reflexivity].
    unfold search_node; rewrite (nodot_single _ k H eq_refl); reflexivity.
  Qed.

  Lemma search_or_create_path : forall h x p, forallb no_dot p = true ->
    search_or_create_node h x p = walk_create h x p.
  Proof.
    intros h x [|k [|k2 r]] H; try reflexivity.
    unfold search_or_create_node; rewrite (nodot_single _ k H eq_refl); reflexivity.
  Qed.

  (** *** The invariant of every history *)
  (** Nodes of local trees from number [b] on hold no value. *)
  Definition Inv (b : nat) (loc : nat -> bool) h : Prop :=
    WF loc h /\ (forall i, b <= i -> loc i = true -> nval (hget h i) = None) /\ (forall i, length h <= i -> loc i = false).
  Lemma Inv_now : forall b loc h, Inv b loc h -> Inv (length h) loc h.
  Proof. intros b loc h (W & Lv & O); split; [exact W|split; [|exact O]]; intros i Hi _; rewrite hget_out by exact Hi; reflexivity. Qed.

  (** Nodes of earlier projections are not touched (their look may change only below a gate). *)
  Definition local_frame (loc : nat -> bool) h h' : Prop :=
    forall i, i < length h -> loc i = true ->
      nchilds (hget h' i) = nchilds (hget h i) /\ nparent (hget h' i) = nparent (hget h i) /\ nval (hget h' i) = nval (hget h i).

  Definition restrict (loc : nat -> bool) (n : nat) : nat -> bool := fun i => if Nat.ltb i n then loc i else false.

  Lemma WF_restrict : forall loc h, WF loc h -> WF (restrict loc (length h)) h.
  Proof.
    intros loc h W; assert (forall i, i < length h -> restrict loc (length h) i = loc i) as R.
    { intros i Hi; unfold restrict; destruct (Nat.ltb_spec i (length h)); [reflexivity|lia]. }
    split; try apply W.
    - rewrite R; apply W.
    - intros p k c E; destruct (wf_edge_alloc _ _ W _ _ _ E); rewrite !R by assumption; apply (wf_edge_src _ _ W _ _ _ E).
    - intros p k c E; destruct (wf_edge_alloc _ _ W _ _ _ E); rewrite !R by assumption; apply (wf_edge_loc _ _ W _ _ _ E).
    - intros p c E; destruct (wf_parent _ _ W _ _ E) as (H1 & H2 & H3); rewrite !R by lia; auto.
  Qed.

  (** *** tree[k] = v *)
  Lemma tree_set_ok : forall b loc h k p v, Inv b loc h -> parse kc k = Some p -> vc v = true ->
    exists loc' h', tree_set kc vc h 0 k (Some v) = Ok h' /\ Inv b loc' h' /\ agree loc loc' (length h) /\
      length h <= length h' /\
      (forall i, length h <= i -> loc' i = false) /\
      (forall q, lookup h' 0 q = if path_eqb q p then Some v else lookup h 0 q) /\
      local_frame loc h h' /\
      (forall q m, walk h 0 q = Some m -> walk h' 0 q = Some m) /\
      (forall q m, walk h' 0 q = Some m -> walk h 0 q = Some m \/ prefix q p).
  Proof.
    intros b loc h k p v (W & Lv & Lout) Hk Hv.
    assert (exists keys, get_converted_keys kc k = Ok keys /\ (match k with KStr _ => True | KOther => False end) /\
            search_or_create_node h 0 keys = walk_create h 0 p) as (keys & Ek & Hks & Es).
    { destruct (keys_cases k) as [(E & _)|[(-> & E1 & E2)|(p' & Hne & _ & E1 & E2 & Hd)]]; [congruence| |].
      - assert (p = []) as -> by congruence. exists [sep]; auto.
      - assert (p' = p) as -> by congruence. exists p; split; [exact E2|]; split.
        + destruct k; [exact I|discriminate].
        + apply search_or_create_path; exact Hd. }
    destruct (walk_create_spec p loc h 0 W (wf_pos _ _ W) (wf_root _ _ W))
      as (loc1 & h1 & n & E1 & W1 & A1 & X1 & N1 & F1 & Wn & Hn & Inv1 & Me1).
    exists (restrict loc1 (length h1)), (set_val h1 n (Some v)).
    assert (forall i, i < length h1 -> restrict loc1 (length h1) i = loc1 i) as R.
    { intros i Hi; unfold restrict; destruct (Nat.ltb_spec i (length h1)); [reflexivity|lia]. }
    pose proof (ext_len _ _ X1) as XL.
    assert (loc1 n = false) as Ln by (apply (walk_src _ _ _ _ _ W1 (wf_root _ _ W1) Wn)).
    split.
    { unfold tree_set; destruct k as [s|]; [|destruct Hks].
      rewrite Hv, Ek, Es, E1; reflexivity. }
    split.
    { split; [apply WF_set_val, WF_restrict, W1|]; split.
      - intros i Bi Li; unfold restrict in Li; destruct (Nat.ltb_spec i (length h1)) as [Hi|Hi]; [|discriminate].
        rewrite nval_set_val_other by congruence.
        destruct (Nat.lt_ge_cases i (length h)) as [Hlt|Hge].
        + rewrite A1 in Li by exact Hlt; rewrite F1 by assumption; apply Lv; assumption.
        + rewrite N1 in Li by assumption; discriminate.
      - intros i; rewrite length_set_val; intros Hi; unfold restrict; destruct (Nat.ltb_spec i (length h1)); [lia|reflexivity]. }
    split; [intros i Hi; rewrite R by lia; apply A1; exact Hi|].
    split; [rewrite length_set_val; exact XL|].
    split.
    { intros i Hi; unfold restrict; destruct (Nat.ltb_spec i (length h1)); [apply N1; assumption|reflexivity]. }
    split; [|split; [|split]].
    - intros q; rewrite lookup_set_val by exact Hn.
      destruct (walk h1 0 q) as [m|] eqn:Eq.
      + destruct (Nat.eqb_spec m n) as [->|Hmn].
        * assert (q = p) as -> by (apply (walk_inj _ _ W1 q p n); assumption).
          destruct (path_eqb_spec p p); [reflexivity|congruence].
        * destruct (path_eqb_spec q p) as [->|Hne]; [congruence|].
          rewrite <- (ext_lookup _ _ X1); unfold lookup; rewrite Eq; reflexivity.
      + destruct (path_eqb_spec q p) as [->|Hne]; [congruence|].
        rewrite <- (ext_lookup _ _ X1); unfold lookup; rewrite Eq; reflexivity.
    - intros i Hi Li; rewrite nchilds_set_val, nparent_set_val, nval_set_val_other, F1 by (try assumption; intros ->; rewrite A1 in Ln by exact Hi; congruence); auto.
    - intros q m Hq; rewrite walk_set_val; apply (ext_walk _ _ X1); exact Hq.
    - intros q m Hq; rewrite walk_set_val in Hq; destruct (Inv1 [] q m eq_refl Hq) as [H|(ks1 & P & ->)]; auto.
  Qed.

  (** *** del tree[k] *)
  Lemma anc_loc : forall loc h x n, WF loc h -> anc h x n -> loc x = loc n.
  Proof.
    intros loc h x n W H; induction H as [p n H|p m n H _ IH]; apply (wf_parent _ _ W) in H; intuition congruence.
  Qed.

  Lemma tree_del_ok : forall b loc h k p v, Inv b loc h -> parse kc k = Some p -> lookup h 0 p = Some v ->
    exists h', tree_del kc h 0 k = Ok h' /\ Inv b loc h' /\ length h' = length h /\
      (forall q, lookup h' 0 q = if path_eqb q p then None else lookup h 0 q) /\
      local_frame loc h h' /\
      (forall q m, walk h' 0 q = Some m -> walk h 0 q = Some m) /\
      ((forall x q, walk h 0 q = Some x -> clean h x) -> (forall x q, walk h' 0 q = Some x -> clean h' x)).
  Proof.
    intros b loc h k p v (W & Lv & Lout) Hk Hl.
    assert (exists keys, get_converted_keys kc k = Ok keys /\ (match k with KStr _ => True | KOther => False end) /\
            search_node h 0 keys = walk h 0 p) as (keys & Ek & Hks & Es).
    { destruct (keys_cases k) as [(E & _)|[(-> & E1 & E2)|(p' & Hne & _ & E1 & E2 & Hd)]]; [congruence| |].
      - assert (p = []) as -> by congruence. exists [sep]; auto.
      - assert (p' = p) as -> by congruence. exists p; split; [exact E2|]; split.
        + destruct k; [exact I|discriminate].
        + apply search_node_path; assumption. }
    unfold lookup in Hl; destruct (walk h 0 p) as [n|] eqn:Ew; [|discriminate].
    assert (n < length h) as Hn by (apply (walk_alloc _ _ _ _ _ W (wf_pos _ _ W) Ew)).
    assert (loc n = false) as Ln by (apply (walk_src _ _ _ _ _ W (wf_root _ _ W) Ew)).
    set (h1 := set_val h n None).
    assert (WF loc h1) as W1 by (apply WF_set_val; exact W).
    destruct (cut_spec (S (length h1)) loc h1 n 0 W1) as (h' & Ec & P & C & O).
    { unfold h1; rewrite length_set_val; exact Hn. }
    { unfold h1; rewrite length_set_val; lia. }
    { intros p0 k0; unfold h1; rewrite edge_set_val; apply (wf_root_nochild _ _ W). }
    assert (length h' = length h) as EL by (rewrite (pr_len _ _ P); apply length_set_val).
    exists h'; split.
    { unfold tree_del; destruct k as [s|]; [|destruct Hks]. rewrite Ek, Es, Hl; exact Ec. }
    split.
    { split; [exact (prune_WF _ _ _ W1 P)|]; split.
      - intros i Bi Li; rewrite (pr_val _ _ P); unfold h1; rewrite nval_set_val_other by congruence; apply Lv; assumption.
      - rewrite EL; exact Lout. }
    split; [exact EL|].
    assert (forall q, lookup h1 0 q = if path_eqb q p then None else lookup h 0 q) as Lk1.
    { intros q; unfold h1; rewrite lookup_set_val by exact Hn; unfold lookup.
      destruct (walk h 0 q) as [m|] eqn:Eq.
      - destruct (Nat.eqb_spec m n) as [->|Hmn].
        + assert (q = p) as -> by (apply (walk_inj _ _ W q p n); assumption).
          destruct (path_eqb_spec p p); [reflexivity|congruence].
        + destruct (path_eqb_spec q p) as [->|Hne]; [congruence|reflexivity].
      - destruct (path_eqb_spec q p); reflexivity. }
    split; [|split; [|split]].
    - intros q; rewrite (prune_lookup _ _ P); apply Lk1.
    - intros i Hi Li; rewrite O.
      + unfold h1; rewrite (pr_parent _ _ P), (pr_val _ _ P), nchilds_set_val; unfold h1; rewrite nparent_set_val, nval_set_val_other by congruence; auto.
      + intros Ha; apply (anc_loc _ _ _ _ W1) in Ha; congruence.
    - intros q m Hq; apply (prune_walk _ _ P) in Hq; unfold h1 in Hq; rewrite walk_set_val in Hq; exact Hq.
    - intros Hc x q Hx k0 c Ed B.
      assert (walk h1 0 q = Some x) as Hx1 by (apply (prune_walk _ _ P); exact Hx).
      assert (walk h 0 q = Some x) as Hx0 by (unfold h1 in Hx1; rewrite walk_set_val in Hx1; exact Hx1).
      assert (forall a b, anc h1 a b \/ ~ anc h1 a b) as Dec.
      { clear Lv b; intros a b; revert a; induction b as [b IHb] using lt_wf_ind; intros a.
        destruct (nparent (hget h1 b)) as [pb|] eqn:Epb.
        - destruct (wf_parent _ _ W1 _ _ Epb) as (Hlt & _).
          destruct (Nat.eq_dec a pb) as [->|Hne]; [left; apply anc_one; exact Epb|].
          destruct (IHb pb Hlt a) as [Ha|Ha]; [left; apply (anc_more _ _ pb); assumption|].
          right; intros H; inversion H as [? ? E1|? m ? E1 E2]; subst; [congruence|].
          assert (m = pb) as -> by congruence; contradiction.
        - right; intros H; inversion H as [? ? E1|? m ? E1 E2]; subst; congruence. }
      destruct (Dec x n) as [Ha|Ha].
      + exact (C x Ha k0 c Ed B).
      + (* x is not above n: the child's values were there before and are not n's *)
        assert (edge h x k0 c) as Ed0.
        { apply (pr_sub _ _ P) in Ed; unfold h1 in Ed; apply edge_set_val in Ed; exact Ed. }
        apply (Hc x q Hx0 k0 c Ed0); intros s.
        specialize (B s); rewrite (prune_lookup _ _ P) in B.
        unfold h1 in B; rewrite lookup_set_val in B by exact Hn; unfold lookup.
        destruct (walk h c s) as [y|] eqn:Ey; [|reflexivity].
        destruct (Nat.eqb_spec y n) as [->|Hyn]; [exfalso|exact B].
        apply Ha.
        (* n is reached below x *)
        assert (forall s c', edge h1 x k0 c' \/ (exists x', anc h1 x x' /\ exists kk, edge h1 x' kk c') ->
                loc c' = false -> forall n', walk h1 c' s = Some n' -> anc h1 x n') as G.
        { induction s0 as [|k1 s0 IHs]; intros c' Hc' Lc' n' Hw.
          - cbn [walk] in Hw; injection Hw as <-.
            destruct Hc' as [E|(x' & Ax & kk & E)].
            + apply anc_one. destruct (loc x) eqn:Lx.
              * rewrite (walk_src _ _ _ _ _ W (wf_root _ _ W) Hx0) in Lx; discriminate.
              * apply (wf_edge_src _ _ W1 _ _ _ E Lx).
            + apply (anc_more _ _ x'); [|exact Ax].
              assert (loc x' = false) as Lx'.
              { rewrite <- (anc_loc _ _ _ _ W1 Ax); apply (walk_src _ _ _ _ _ W (wf_root _ _ W) Hx0). }
              apply (wf_edge_src _ _ W1 _ _ _ E Lx').
          - apply walk_cons in Hw; destruct Hw as (c2 & E2 & Hw).
            apply (IHs c2); [|apply (wf_edge_src _ _ W1 _ _ _ E2 Lc')|exact Hw].
            right; exists c'; split; [|exists k1; exact E2].
            destruct Hc' as [E|(x' & Ax & kk & E)].
            + apply anc_one; assert (loc x = false) as Lx by (apply (walk_src _ _ _ _ _ W (wf_root _ _ W) Hx0)).
              apply (wf_edge_src _ _ W1 _ _ _ E Lx).
            + apply (anc_more _ _ x'); [|exact Ax].
              assert (loc x' = false) as Lx'.
              { rewrite <- (anc_loc _ _ _ _ W1 Ax); apply (walk_src _ _ _ _ _ W (wf_root _ _ W) Hx0). }
              apply (wf_edge_src _ _ W1 _ _ _ E Lx'). }
        assert (loc x = false) as Lx by (apply (walk_src _ _ _ _ _ W (wf_root _ _ W) Hx0)).
        apply (G s c); [left; unfold h1; apply edge_set_val; exact Ed0|apply (wf_edge_src _ _ W _ _ _ Ed0 Lx)|].
        unfold h1; rewrite walk_set_val; exact Ey.
  Qed.

  Lemma tree_del_absent : forall h k, (match parse kc k with Some p => lookup h 0 p = None | None => True end) ->
    tree_del kc h 0 k = Err EKeyError.
  Proof.
    intros h k H; destruct (keys_cases k) as [(E & E2 & _)|[(-> & E1 & E2)|(p' & Hne & Hk & E1 & E2 & Hd)]].
    - unfold tree_del; destruct k; [rewrite E2|]; reflexivity.
    - rewrite E1 in H; unfold tree_del; rewrite E2; unfold lookup in H; cbn [walk] in H.
      cbn [search_node]; rewrite String.eqb_refl, H; reflexivity.
    - rewrite E1 in H; unfold tree_del; destruct k; [|reflexivity].
      rewrite E2, search_node_path by assumption; unfold lookup in H.
      destruct (walk h 0 p'); [rewrite H|]; reflexivity.
  Qed.

  Lemma tree_get_spec : forall h r k, tree_get kc h r k =
    match parse kc k with Some p => Ok (lookup h r p) | None => Err EKeyError end.
  Proof.
    intros h r k; destruct (keys_cases k) as [(E & E2 & Hk)|[(-> & E1 & E2)|(p & Hne & Hk & E1 & E2 & Hd)]].
    - rewrite E; unfold tree_get; destruct k as [s|]; [|reflexivity].
      destruct (String.eqb_spec s sep) as [->|]; [congruence|]; rewrite E2; reflexivity.
    - rewrite E1; reflexivity.
    - rewrite E1; unfold tree_get; destruct k as [s|]; [|discriminate].
      destruct (String.eqb_spec s sep) as [->|]; [congruence|].
      rewrite E2, search_node_path by assumption; unfold lookup; destruct (walk h r p); reflexivity.
  Qed.

  Lemma tree_contains_spec : forall h r k, tree_contains kc h r k =
    match parse kc k with
    | Some p => Ok (match walk h r p with Some _ => true | None => false end)
    | None => Err EKeyError end.
  Proof.
    intros h r k; unfold tree_contains; destruct (keys_cases k) as [(E & E2 & Hk)|[(-> & E1 & E2)|(p & Hne & Hk & E1 & E2 & Hd)]].
    - rewrite E, E2; reflexivity.
    - rewrite E1, E2; reflexivity.
    - rewrite E1, E2, search_node_path by assumption; destruct (walk h r p); reflexivity.
  Qed.

  (** *** Projection *)
  Lemma walk_frame : forall loc loc' h h' r, WF loc h -> WF loc' h' -> agree loc loc' (length h) ->
    r < length h -> loc r = true ->
    (forall i, i < length h -> loc i = true -> nchilds (hget h' i) = nchilds (hget h i)) ->
    (forall q x, walk h r q = Some x -> loc x = true -> walk h' r q = Some x /\ loc' x = true) /\
    (forall q x, walk h' r q = Some x -> loc' x = true -> walk h r q = Some x /\ loc x = true).
  Proof.
    intros loc loc' h h' r W W' A Hr Lr F.
    assert (forall q x, walk h r q = Some x -> loc x = true -> walk h' r q = Some x /\ loc' x = true) as W1.
    { intros q; induction q as [|k q IH] using rev_ind; intros x Hx Lx.
      - cbn [walk] in *; injection Hx as <-; rewrite A by exact Hr; auto.
      - destruct (walk_local_prefix _ _ W _ _ _ _ Hx Lx) as (y & Hy & Ly).
        apply walk_snoc in Hx; destruct Hx as (y' & Hy' & E); assert (y' = y) as -> by congruence.
        destruct (IH y Hy Ly) as [Hy2 Ly2].
        pose proof (walk_alloc _ _ _ _ _ W Hr Hy) as Ay.
        destruct (wf_edge_alloc _ _ W _ _ _ E) as [_ Ax].
        split; [|rewrite A by exact Ax; exact Lx].
        apply walk_snoc; exists y; split; [exact Hy2|]; unfold edge; rewrite F by assumption; exact E. }
    assert (forall q x, walk h' r q = Some x -> loc' x = true -> walk h r q = Some x /\ loc x = true) as W2.
    { intros q; induction q as [|k q IH] using rev_ind; intros x Hx Lx.
      - cbn [walk] in *; injection Hx as <-; auto.
      - destruct (walk_local_prefix _ _ W' _ _ _ _ Hx Lx) as (y & Hy & Ly).
        apply walk_snoc in Hx; destruct Hx as (y' & Hy' & E); assert (y' = y) as -> by congruence.
        destruct (IH y Hy Ly) as [Hy2 Ly2].
        pose proof (walk_alloc _ _ _ _ _ W Hr Hy2) as Ay.
        unfold edge in E; rewrite F in E by assumption.
        destruct (wf_edge_alloc _ _ W _ _ _ E) as [_ Ax].
        split; [|rewrite A in Lx by exact Ax; exact Lx].
        apply walk_snoc; exists y; auto. }
    split; assumption.
  Qed.

  Lemma gate_frame : forall loc loc' h h' r, WF loc h -> WF loc' h' -> agree loc loc' (length h) ->
    r < length h -> loc r = true ->
    (forall i, i < length h -> loc i = true -> nchilds (hget h' i) = nchilds (hget h i)) ->
    forall q m, gate loc' h' r q m <-> gate loc h r q m.
  Proof.
    intros loc loc' h h' r W W' A Hr Lr F.
    destruct (walk_frame loc loc' h h' r W W' A Hr Lr F) as [W1 W2].
    intros q m; split; intros (q1 & k & x & -> & Hx & Lx & E & Lm).
    - destruct (W2 _ _ Hx Lx) as [Hx2 Lx2].
      pose proof (walk_alloc _ _ _ _ _ W Hr Hx2) as Ax.
      unfold edge in E; rewrite F in E by assumption.
      destruct (wf_edge_alloc _ _ W _ _ _ E) as [_ Am].
      exists q1, k, x; rewrite A in Lm by exact Am; auto.
    - destruct (W1 _ _ Hx Lx) as [Hx2 Lx2].
      destruct (wf_edge_alloc _ _ W _ _ _ E) as [Ax Am].
      exists q1, k, x; split; [reflexivity|]; split; [exact Hx2|]; split; [exact Lx2|]; split; [unfold edge; rewrite F by assumption; exact E|rewrite A by exact Am; exact Lm].
  Qed.

  Definition in_ps (ps : list path) (loc : nat -> bool) h r : Prop :=
    (forall q m, gate loc h r q m -> In q ps) /\
    (forall p, In p ps -> exists q m, prefix q p /\ gate loc h r q m).

  Lemma prefix_trans : forall a b c, prefix a b -> prefix b c -> prefix a c.
  Proof. intros a b c (x & ->) (y & ->); exists (x ++ y); rewrite app_assoc; reflexivity. Qed.

  Lemma project_loop_ok : forall ks b loc h r done, Inv b loc h -> local_root loc h r -> gates_ok loc h r ->
    in_ps done loc h r ->
    exists loc' h' res, project_loop kc h 0 r ks = (h', res) /\ Inv b loc' h' /\ agree loc loc' (length h) /\
      length h <= length h' /\
      (forall q, lookup h' 0 q = lookup h 0 q) /\
      (forall q m, walk h 0 q = Some m -> walk h' 0 q = Some m) /\
      (forall i, i < r -> loc i = true -> hget h' i = hget h i) /\
      match spec_project (V := V) kc ks with
      | RErr e => res = Err e
      | RUnit => res = Ok r /\ local_root loc' h' r /\ gates_ok loc' h' r /\
                 exists ps, Forall2 (fun k p => parse kc k = Some p) ks ps /\ in_ps (done ++ ps) loc' h' r /\
                   (forall q m, walk h' 0 q = Some m -> walk h 0 q = Some m \/ exists p, In p ps /\ prefix q p) /\
                   (forall p q, In p ps -> prefix q p -> exists m, walk h' 0 q = Some m)
      | _ => False
      end.
  Proof.
    induction ks as [|k ks IH]; intros b loc h r done (W & Lv & Lout) (Lr & Hr & Hrp) Gok (G1 & G2).
    - exists loc, h, (Ok r); cbn [project_loop spec_project].
      split; [reflexivity|]; split; [split; auto|]; split; [intros i _; reflexivity|]; split; [lia|].
      split; [reflexivity|]; split; [auto|]; split; [auto|]; split; [reflexivity|]; split; [split; auto|].
      split; [exact Gok|]; exists []; rewrite app_nil_r; split; [constructor|]; split; [split; assumption|].
      split; [auto|intros p q []].
    - cbn [project_loop spec_project].
      destruct (keys_cases k) as [(E & E2 & Hk)|[(-> & E1 & E2)|(p & Hne & Hk & E1 & E2 & Hd)]].
      + (* rejected name *)
        rewrite E, E2.
        assert (match k with KStr s => String.eqb s sep | KOther => false end = false) as ->.
        { destruct k as [s|]; [|reflexivity]; destruct (String.eqb_spec s sep) as [->|]; [congruence|reflexivity]. }
        exists loc, h, (Err EKeyError); split; [reflexivity|]; split; [split; auto|]; split; [intros i _; reflexivity|].
        split; [lia|]; split; [reflexivity|]; split; [auto|]; split; auto.
      + rewrite E1, String.eqb_refl.
        exists loc, h, (Err EValueError); split; [reflexivity|]; split; [split; auto|]; split; [intros i _; reflexivity|].
        split; [lia|]; split; [reflexivity|]; split; [auto|]; split; auto.
      + rewrite E1, E2.
        assert (match k with KStr s => String.eqb s sep | KOther => false end = false) as ->.
        { destruct k as [s|]; [|reflexivity]; destruct (String.eqb_spec s sep) as [->|]; [congruence|reflexivity]. }
        rewrite search_or_create_path by exact Hd.
        destruct (walk_create_spec p loc h 0 W (wf_pos _ _ W) (wf_root _ _ W))
          as (loc1 & h1 & n & Ec & W1 & A1 & X1 & N1 & F1 & Wn & Hn & Inv1 & Me1).
        rewrite Ec.
        pose proof (ext_len _ _ X1) as XL.
        assert (local_root loc1 h1 r) as LR1.
        { split; [rewrite A1 by exact Hr; exact Lr|]; split; [lia|]; rewrite F1 by assumption; exact Hrp. }
        assert (forall q m, gate loc1 h1 r q m <-> gate loc h r q m) as Gf.
        { apply (gate_frame loc loc1 h h1 r); auto; intros i Hi Li; rewrite F1 by assumption; reflexivity. }
        assert (gates_ok loc1 h1 r) as Gok1.
        { intros q m G; apply (ext_walk _ _ X1), Gok, Gf; exact G. }
        destruct (put_walk_spec p loc1 h1 r r n [] W1 LR1 eq_refl (proj1 LR1) Hne Gok1 Wn)
          as (loc2 & h2 & E3 & W2 & A2 & L2 & N2 & Nv2 & F2 & Fr2 & Rp2 & Gok2 & Ga & Gb & Gc).
        cbn [app] in Ga, Gb, Gc.
        assert (put_node kc h1 r k n = (h2, Ok r)) as ->.
        { unfold put_node; destruct k as [s|]; [|discriminate].
          destruct (String.eqb_spec s sep) as [->|]; [congruence|]; rewrite E2, E3; reflexivity. }
        set (loc3 := restrict loc2 (length h2)).
        assert (forall i, i < length h2 -> loc3 i = loc2 i) as R3.
        { intros i Hi; unfold loc3, restrict; destruct (Nat.ltb_spec i (length h2)); [reflexivity|lia]. }
        assert (WF loc3 h2) as W3 by (apply WF_restrict; exact W2).
        assert (forall q m, gate loc3 h2 r q m <-> gate loc2 h2 r q m) as G3.
        { apply (gate_frame loc2 loc3 h2 h2 r); auto.
          - lia.
          - rewrite A2 by lia; apply LR1. }
        assert (forall q m, walk h1 0 q = Some m -> walk h2 0 q = Some m) as Wm.
        { intros q m Hq; rewrite (walk_src_frame loc1 h1 h2 W1); [exact Hq| |apply W1|apply W1].
          intros i Hi Li; rewrite F2 by assumption; reflexivity. }
        destruct (IH b loc3 h2 r (done ++ [p])) as (loc' & h' & res & E4 & I4 & A4 & L4 & Lk4 & Wk4 & Fr4 & Rest).
        { split; [exact W3|]; split.
          - intros i Bi Li; rewrite Nv2.
            destruct (Nat.lt_ge_cases i (length h2)) as [Hlt|Hge].
            + rewrite R3 in Li by exact Hlt.
              destruct (Nat.lt_ge_cases i (length h1)) as [Hlt1|Hge1].
              * rewrite A2 in Li by exact Hlt1.
                destruct (Nat.lt_ge_cases i (length h)) as [Hlt0|Hge0].
                -- rewrite A1 in Li by exact Hlt0; rewrite F1 by assumption; apply Lv; assumption.
                -- rewrite N1 in Li by assumption; discriminate.
              * rewrite hget_out by exact Hge1; reflexivity.
            + unfold loc3, restrict in Li; destruct (Nat.ltb_spec i (length h2)); [lia|discriminate].
          - intros i Hi; unfold loc3, restrict; destruct (Nat.ltb_spec i (length h2)); [lia|reflexivity]. }
        { split; [rewrite R3 by lia; rewrite A2 by lia; apply LR1|]; split; [lia|exact Rp2]. }
        { intros q m G; apply Gok2, G3; exact G. }
        { split.
          - intros q m G; apply G3 in G; rewrite in_app_iff; destruct (Ga q m G) as [G'| ->].
            + left; apply (G1 q m), Gf; exact G'.
            + right; left; reflexivity.
          - intros p0 Hp0; apply in_app_iff in Hp0; destruct Hp0 as [Hp0|[<-|[]]].
            + destruct (G2 p0 Hp0) as (q & m & Pq & G); apply Gf in G.
              destruct (Gc q m G) as [Pp|G'].
              * destruct Gb as (q' & m' & Pq' & G'); exists q', m'; split; [|apply G3; exact G'].
                eapply prefix_trans; [exact Pq'|]; eapply prefix_trans; eassumption.
              * exists q, m; split; [exact Pq|apply G3; exact G'].
            + destruct Gb as (q' & m' & Pq' & G'); exists q', m'; split; [exact Pq'|apply G3; exact G']. }
        exists loc', h', res; split; [exact E4|]; split; [exact I4|].
        split; [intros i Hi; rewrite A4, R3, A2, A1 by lia; reflexivity|].
        split; [lia|].
        assert (forall q, lookup h2 0 q = lookup h1 0 q) as Lk2.
        { intros q; unfold lookup; rewrite (walk_src_frame loc1 h1 h2 W1); [| |apply W1|apply W1].
          - destruct (walk h1 0 q); [apply Nv2|reflexivity].
          - intros i Hi Li; rewrite F2 by assumption; reflexivity. }
        split; [intros q; rewrite Lk4, Lk2; apply (ext_lookup _ _ X1)|].
        split; [intros q m Hq; apply Wk4, Wm, (ext_walk _ _ X1); exact Hq|].
        split.
        { intros i Hi Li; rewrite Fr4; [|lia|].
          - rewrite Fr2 by exact Hi; apply F1; [lia|exact Li].
          - rewrite R3, A2, A1 by lia; exact Li. }
        change ((fix go (l : list pykey) : tout V :=
             match l with
             | [] => RUnit
             | k0 :: r0 => match parse kc k0 with
                           | Some [] => RErr EValueError
                           | Some (_ :: _) => go r0
                           | None => RErr EKeyError
                           end
             end) ks) with (spec_project (V := V) kc ks).
        destruct p as [|p1 p2]; [congruence|].
        destruct (spec_project (V := V) kc ks) as [| | |e]; try contradiction; [|exact Rest].
        destruct Rest as (-> & LR4 & Gok4 & ps & Fps & Ips & Wps & Pps).
        split; [reflexivity|]; split; [exact LR4|]; split; [exact Gok4|].
        exists ((p1 :: p2) :: ps); split; [constructor; assumption|].
        split; [rewrite <- app_assoc in Ips; exact Ips|].
        split.
        * intros q m Hq; destruct (Wps q m Hq) as [H|(p0 & Hi & Hp0)]; [|right; exists p0; split; [right; exact Hi|exact Hp0]].
          rewrite (walk_src_frame loc1 h1 h2 W1) in H; [| |apply W1|apply W1].
          -- destruct (Inv1 [] q m eq_refl H) as [H'|(ks1 & P & ->)]; [left; exact H'|].
             right; exists (p1 :: p2); split; [left; reflexivity|exact P].
          -- intros i Hi Li; rewrite F2 by assumption; reflexivity.
        * intros p0 q [<-|Hi] Hq; [|apply (Pps p0 q Hi Hq)].
          destruct Hq as (s & Es). rewrite Es in Wn; rewrite walk_app in Wn.
          destruct (walk h1 0 q) as [m|] eqn:Em; [|discriminate].
          exists m; apply Wk4, Wm; exact Em.
  Qed.

  Lemma new_root_Inv : forall b loc h, Inv b loc h ->
    let h1 := fst (new_root h) in let loc1 := fun i => if Nat.eqb i (length h) then true else loc i in
    snd (new_root h) = length h /\ Inv b loc1 h1 /\ local_root loc1 h1 (length h) /\
    (forall i, i < length h -> hget h1 i = hget h i) /\ (forall y q, y < length h -> walk h1 y q = walk h y q) /\
    (forall y q, y < length h -> lookup h1 y q = lookup h y q) /\ nchilds (hget h1 (length h)) = [].
  Proof.
    intros b loc h (W & Lv & Lout) h1 loc1.
    assert (length h1 = S (length h)) as EL by (unfold h1, new_root; cbn [fst]; rewrite app_length; cbn [length]; lia).
    assert (hget h1 (length h) = mkNode None [] None None) as En by (unfold h1, new_root; cbn [fst]; apply hget_app_new).
    assert (forall i, i < length h -> hget h1 i = hget h i) as Eo by (intros; unfold h1, new_root; cbn [fst]; apply hget_app_old; assumption).
    assert (forall i, length h < i -> hget h1 i = dummy) as Eout by (intros; apply hget_out; lia).
    assert (forall i, nchilds (hget h1 i) = nchilds (hget h i)) as Ec.
    { intros i; destruct (lt_eq_lt_dec i (length h)) as [[Hl| ->]|Hg].
      - rewrite Eo by exact Hl; reflexivity.
      - rewrite En, (hget_out h (length h)) by lia; reflexivity.
      - rewrite Eout, (hget_out h i) by lia; reflexivity. }
    assert (forall p k c, edge h1 p k c <-> edge h p k c) as Ee by (intros; unfold edge; rewrite Ec; tauto).
    assert (forall i, i < length h -> loc1 i = loc i) as Lo.
    { intros i Hi; unfold loc1; destruct (Nat.eqb_spec i (length h)); [lia|reflexivity]. }
    assert (forall i, nparent (hget h1 i) = nparent (hget h i)) as Ep.
    { intros i; destruct (lt_eq_lt_dec i (length h)) as [[Hl| ->]|Hg].
      - rewrite Eo by exact Hl; reflexivity.
      - rewrite En, (hget_out h (length h)) by lia; reflexivity.
      - rewrite Eout, (hget_out h i) by lia; reflexivity. }
    assert (forall y q, walk h1 y q = walk h y q) as Ew.
    { intros y q; revert y; induction q as [|k q IH]; intros y; cbn [walk]; [reflexivity|].
      rewrite Ec; destruct (dget String.eqb (nchilds (hget h y)) k); auto. }
    pose proof (wf_pos _ _ W) as P0.
    split; [reflexivity|]; split; [|split; [|split; [|split; [|split]]]].
    - split; [|split].
      + split.
        * lia.
        * rewrite Lo by lia; apply W.
        * rewrite Ep; apply W.
        * intros p k; rewrite Ee; apply W.
        * intros p; rewrite Ec; apply W.
        * intros p k c E; apply Ee in E; apply (wf_edge_alloc _ _ W) in E; lia.
        * intros p k c E L; apply Ee in E; destruct (wf_edge_alloc _ _ W _ _ _ E); rewrite Lo in * by lia.
          rewrite Eo by lia; apply (wf_edge_src _ _ W _ _ _ E L).
        * intros p k c E L1 L2; apply Ee in E; destruct (wf_edge_alloc _ _ W _ _ _ E); rewrite Lo in * by lia.
          rewrite Eo by lia; apply (wf_edge_loc _ _ W _ _ _ E L1 L2).
        * intros p c E; rewrite Ep in E; destruct (wf_parent _ _ W _ _ E) as (H1 & H2 & H3); rewrite !Lo by lia; split; [lia|split; [exact H2|lia]].
      + intros i Bi Li; destruct (lt_eq_lt_dec i (length h)) as [[Hl| ->]|Hg].
        * rewrite Eo by exact Hl; apply Lv; [exact Bi|]; rewrite Lo in Li by exact Hl; exact Li.
        * rewrite En; reflexivity.
        * rewrite Eout by exact Hg; reflexivity.
      + intros i Hi; unfold loc1; destruct (Nat.eqb_spec i (length h)); [lia|apply Lout; lia].
    - unfold local_root, loc1; rewrite Nat.eqb_refl, En; repeat split; lia.
    - exact Eo.
    - intros y q _; apply Ew.
    - intros y q Hy; unfold lookup; rewrite Ew; destruct (walk h y q) as [m|] eqn:Em; [|reflexivity].
      rewrite Eo; [reflexivity|]; apply (walk_alloc _ _ _ _ _ W Hy Em).
    - rewrite En; reflexivity.
  Qed.

  Lemma project_ok : forall ks b loc h, Inv b loc h ->
    exists loc' h' res, project kc h 0 ks = (h', res) /\ Inv b loc' h' /\ agree loc loc' (length h) /\
      length h <= length h' /\
      (forall q, lookup h' 0 q = lookup h 0 q) /\
      (forall q m, walk h 0 q = Some m -> walk h' 0 q = Some m) /\
      local_frame loc h h' /\
      match spec_project (V := V) kc ks with
      | RErr e => res = Err e
      | RUnit => exists r, res = Ok r /\ (length h <= r /\ local_root loc' h' r) /\ gates_ok loc' h' r /\
                 exists ps, Forall2 (fun k p => parse kc k = Some p) ks ps /\ in_ps ps loc' h' r /\
                   (forall q m, walk h' 0 q = Some m -> walk h 0 q = Some m \/ exists p, In p ps /\ prefix q p) /\
                   (forall p q, In p ps -> prefix q p -> exists m, walk h' 0 q = Some m)
      | _ => False
      end.
  Proof.
    intros ks b loc h I; destruct (new_root_Inv b loc h I) as (Er & I1 & LR1 & Eo & Ew & El & Ec).
    unfold project; destruct (new_root h) as [h1 r] eqn:En; cbn [fst snd] in *; subst r.
    set (loc1 := fun i => if Nat.eqb i (length h) then true else loc i) in *.
    assert (0 < length h) as P0 by apply I.
    assert (forall q m, ~ gate loc1 h1 (length h) q m) as NoG.
    { intros q m (q1 & k & x & -> & Hx & _ & E & _).
      destruct q1 as [|k1 q1].
      - cbn [walk] in Hx; injection Hx as <-; unfold edge in E; rewrite Ec in E; discriminate.
      - cbn [walk] in Hx; rewrite Ec in Hx; discriminate. }
    destruct (project_loop_ok ks b loc1 h1 (length h) [] I1 LR1) as
      (loc' & h' & res & E4 & I4 & A4 & L4 & Lk4 & Wk4 & Fr4 & Rest).
    { intros q m G; destruct (NoG q m G). }
    { split; [intros q m G; destruct (NoG q m G)|intros p []]. }
    assert (length h < length h1) as L1 by apply LR1.
    exists loc', h', res; split; [exact E4|]; split; [exact I4|].
    assert (forall i, i < length h -> loc1 i = loc i) as Lo.
    { intros i Hi; unfold loc1; destruct (Nat.eqb_spec i (length h)); [lia|reflexivity]. }
    split; [intros i Hi; rewrite A4 by lia; apply Lo; exact Hi|].
    split; [lia|]; split; [intros q; rewrite Lk4; apply El; exact P0|].
    split; [intros q m Hq; apply Wk4; rewrite Ew by exact P0; exact Hq|].
    split.
    { intros i Hi Li; rewrite Fr4, Eo by (try assumption; rewrite Lo by exact Hi; exact Li); auto. }
    destruct (spec_project (V := V) kc ks); try contradiction; [|exact Rest].
    destruct Rest as (-> & LR4 & Gok4 & ps & Fps & Ips & Wps & Pps).
    exists (length h); split; [reflexivity|]; split; [split; [lia|exact LR4]|]; split; [exact Gok4|].
    exists ps; split; [exact Fps|]; split; [exact Ips|]; split; [|exact Pps].
    intros q m Hq; destruct (Wps q m Hq) as [H|H]; [left; rewrite <- Ew by exact P0; exact H|right; exact H].
  Qed.

  (** *** The refinement *)
  Definition Rel h (m : amap V) : Prop :=
    exists b loc, Inv b loc h /\ NoDup (dkeys m) /\ forall p, lookup h 0 p = dget path_eqb m p.

  Lemma empty_Inv : Inv 0 (fun _ => false) (tree_empty (V := V)).
  Proof.
    assert (forall i, nchilds (hget (tree_empty (V := V)) i) = []) as Ec.
    { intros [|[|i]]; reflexivity. }
    assert (forall i, nparent (hget (tree_empty (V := V)) i) = None) as Ep.
    { intros [|[|i]]; reflexivity. }
    split; [|split; [discriminate|reflexivity]].
    split; try reflexivity.
    - cbn; lia.
    - intros p k E; unfold edge in E; rewrite Ec in E; discriminate.
    - intros p; rewrite Ec; constructor.
    - intros p k c E; unfold edge in E; rewrite Ec in E; discriminate.
    - intros p k c E; unfold edge in E; rewrite Ec in E; discriminate.
    - intros p k c E; unfold edge in E; rewrite Ec in E; discriminate.
    - intros p c E; rewrite Ep in E; discriminate.
  Qed.

  Lemma empty_lookup : forall p, lookup (tree_empty (V := V)) 0 p = None.
  Proof. intros [|k p]; reflexivity. Qed.

  Lemma Rel_empty : Rel tree_empty map_empty.
  Proof.
    exists 0, (fun _ => false); split; [apply empty_Inv|]; split; [constructor|].
    intros p; rewrite empty_lookup; reflexivity.
  Qed.

  Lemma NoDup_same_length : forall (l1 l2 : list path), NoDup l1 -> NoDup l2 ->
    (forall x, In x l1 <-> In x l2) -> length l1 = length l2.
  Proof.
    intros l1 l2 H1 H2 H; apply Nat.le_antisymm; apply NoDup_incl_length; auto; intros x Hx; apply H; exact Hx.
  Qed.

  Lemma iter_spec : forall h m, Rel h m -> exists l : list (path * V),
    tree_iter h 0 = Ok (map snd l) /\ tree_len h 0 = Ok (length m) /\ NoDup (map fst l) /\
    (forall p v, In (p, v) l <-> dget path_eqb m p = Some v) /\
    (forall i j p q, i <= j -> nth_error (map fst l) i = Some p -> nth_error (map fst l) j = Some q -> length p <= length q).
  Proof.
    intros h m (b & loc & (W & _ & _) & Hnd & Hl).
    destruct (bfs_values_spec loc h 0 W (wf_pos _ _ W)) as (l & El & Hnd2 & Hin & Hord).
    exists l; unfold tree_iter, tree_len; rewrite El; split; [reflexivity|].
    assert (forall p v, In (p, v) l <-> dget path_eqb m p = Some v) as Hin' by (intros; rewrite Hin, Hl; tauto).
    split; [f_equal; rewrite map_length, <- (map_length fst l), <- (map_length fst m)|split; [exact Hnd2|split; [exact Hin'|exact Hord]]].
    apply NoDup_same_length; [exact Hnd2|exact Hnd|].
    intros p; split; intros Hi.
    - apply in_map_iff in Hi; destruct Hi as ([p' v] & <- & Hi); apply Hin' in Hi.
      apply (dget_In path_eqb path_eqb_spec) in Hi; cbn [fst]; change p' with (fst (p', v)); apply in_map; exact Hi.
    - apply in_map_iff in Hi; destruct Hi as ([p' v] & <- & Hi).
      apply (In_dget path_eqb path_eqb_spec) in Hi; [|exact Hnd]; apply Hin' in Hi; cbn [fst].
      change p' with (fst (p', v)); apply in_map; exact Hi.
  Qed.

  Lemma step_refines : forall h m o, Rel h m ->
    Rel (fst (tree_step kc vc h o)) (fst (map_step kc vc m o)) /\
    snd (tree_step kc vc h o) = snd (map_step kc vc m o).
  Proof.
    intros h m o R; destruct R as (b & loc & I & Hnd & Hl); destruct o as [k v|k|k|k| |ks]; cbn [tree_step map_step].
    - (* set *)
      destruct v as [v|].
      + destruct (vc v) eqn:Ev.
        * destruct (parse kc k) as [p|] eqn:Ep.
          -- destruct (tree_set_ok b loc h k p v I Ep Ev) as (loc' & h' & E & I' & _ & _ & _ & Lk & _).
             rewrite E; destruct k as [s|]; [|discriminate]; rewrite ?Ev, ?Ep; cbn [fst snd]; split; [|reflexivity].
             exists b, loc'; split; [exact I'|]; split; [apply (NoDup_dset path_eqb path_eqb_spec); exact Hnd|].
             intros q; rewrite Lk, (dget_dset path_eqb path_eqb_spec), Hl; reflexivity.
          -- assert (tree_set kc vc h 0 k (Some v) = Err EKeyError) as ->.
             { unfold tree_set; destruct k as [s|]; [|reflexivity]; rewrite Ev.
               destruct (keys_cases (KStr s)) as [(_ & E & _)|[(E & E1 & _)|(p & _ & _ & E & _)]]; [rewrite E; reflexivity|congruence|congruence]. }
             destruct k; rewrite ?Ev, ?Ep; cbn [fst snd]; (split; [exists b, loc; auto|reflexivity]).
        * assert (tree_set kc vc h 0 k (Some v) = Err (match k with KStr _ => EValueError | KOther => EKeyError end)) as ->.
          { unfold tree_set; destruct k; rewrite ?Ev; reflexivity. }
          destruct k; rewrite ?Ev, ?Ep; cbn [fst snd]; (split; [exists b, loc; auto|reflexivity]).
      + unfold tree_set; destruct k; cbn [fst snd]; (split; [exists b, loc; auto|reflexivity]).
    - (* del *)
      destruct (parse kc k) as [p|] eqn:Ep.
      + destruct (dget path_eqb m p) as [v|] eqn:Ev.
        * destruct (tree_del_ok b loc h k p v I Ep) as (h' & E & I' & _ & Lk & _); [rewrite Hl; exact Ev|].
          rewrite E; cbn [fst snd]; split; [|reflexivity].
          exists b, loc; split; [exact I'|]; split; [apply NoDup_ddel; exact Hnd|].
          intros q; rewrite Lk; destruct (path_eqb_spec q p) as [->|Hq].
          -- rewrite (dget_ddel_same path_eqb path_eqb_spec) by exact Hnd; reflexivity.
          -- rewrite (dget_ddel_other path_eqb path_eqb_spec) by congruence; apply Hl.
        * rewrite tree_del_absent by (rewrite Ep, Hl; exact Ev); cbn [fst snd]; split; [exists b, loc; auto|reflexivity].
      + rewrite tree_del_absent by (rewrite Ep; exact Logic.I); cbn [fst snd]; split; [exists b, loc; auto|reflexivity].
    - (* get *)
      rewrite tree_get_spec; destruct (parse kc k) as [p|]; cbn [fst snd]; (split; [exists b, loc; auto|]); [rewrite Hl|]; reflexivity.
    - (* getitem *)
      unfold tree_getitem; rewrite tree_get_spec; destruct (parse kc k) as [p|]; cbn [fst snd]; [|split; [exists b, loc; auto|reflexivity]].
      rewrite Hl; destruct (dget path_eqb m p); cbn [fst snd]; (split; [exists b, loc; auto|reflexivity]).
    - (* len *)
      destruct (iter_spec h m) as (l & _ & E & _); [exists b, loc; auto|]; rewrite E; cbn [fst snd]; split; [exists b, loc; auto|reflexivity].
    - (* project *)
      destruct (project_ok ks b loc h I) as (loc' & h' & res & E & I' & _ & _ & Lk & _ & _ & Rest).
      rewrite E; destruct (spec_project (V := V) kc ks) as [| | |e] eqn:Es; try contradiction.
      + destruct Rest as (r & -> & _); cbn [fst snd]; split; [|reflexivity].
        exists b, loc'; split; [exact I'|]; split; [exact Hnd|]; intros p; rewrite Lk; apply Hl.
      + subst res; cbn [fst snd]; split; [|reflexivity].
        exists b, loc'; split; [exact I'|]; split; [exact Hnd|]; intros p; rewrite Lk; apply Hl.
  Qed.

  Lemma history_refines : forall ops,
    outputs (tree_step kc vc) tree_empty ops = outputs (map_step kc vc) map_empty ops /\
    Rel (final (tree_step kc vc) tree_empty ops) (final (map_step kc vc) map_empty ops).
  Proof.
    intros ops; apply (outputs_sim (tree_step kc vc) (map_step kc vc) Rel).
    - intros a b o H; apply step_refines; exact H.
    - apply Rel_empty.
  Qed.

  Lemma final_Rel : forall ops h m, Rel h m ->
    Rel (final (tree_step kc vc) h ops) (final (map_step kc vc) m ops).
  Proof.
    intros ops h m H; apply (outputs_sim (tree_step kc vc) (map_step kc vc) Rel); [|exact H].
    intros a b o Hr; apply step_refines; exact Hr.
  Qed.

  (** *** No garbage (histories without projections) *)
  Definition tidy h : Prop := forall x q, walk h 0 q = Some x -> clean h x.

  Lemma tidy_step : forall h m o, Rel h m -> tidy h -> no_projection o = true -> tidy (fst (tree_step kc vc h o)).
  Proof.
    intros h m o (b & loc & I & Hnd & Hl) T No; destruct o as [k v|k|k|k| |ks]; cbn [tree_step no_projection] in *; try discriminate.
    - destruct (tree_set kc vc h 0 k v) as [h'|e] eqn:E; [|exact T].
      assert (exists p v', v = Some v' /\ parse kc k = Some p /\ vc v' = true) as (p & v' & -> & Ep & Ev).
      { unfold tree_set in E; destruct k as [s|]; [|discriminate]; destruct v as [v'|]; [|discriminate].
        destruct (vc v') eqn:Ev; [|discriminate].
        destruct (keys_cases (KStr s)) as [(_ & E1 & _)|[(Hs & E1 & _)|(p & _ & _ & E1 & _)]].
        - rewrite E1 in E; discriminate.
        - exists [], v'; auto.
        - exists p, v'; auto. }
      destruct (tree_set_ok b loc h k p v' I Ep Ev) as (loc' & h2 & E2 & I' & _ & _ & _ & Lk & _ & Mono & Back).
      assert (h2 = h') as -> by congruence.
      cbn [fst]; intros x q Hx k0 c Ed B.
      assert (walk h' 0 (q ++ [k0]) = Some c) as Hc by (apply walk_snoc; exists x; auto).
      destruct (Back _ _ Hc) as [Hc0|(s & Es)].
      + (* old edge *)
        apply walk_snoc in Hc0; destruct Hc0 as (x0 & Hx0 & Ed0).
        assert (x0 = x) as -> by (apply Mono in Hx0; congruence).
        apply (T x q Hx0 k0 c Ed0); intros s.
        specialize (B s).
        assert (lookup h' 0 ((q ++ [k0]) ++ s) = None) as B' by (rewrite lookup_app, Hc; exact B).
        rewrite Lk in B'; destruct (path_eqb ((q ++ [k0]) ++ s) p); [discriminate|].
        rewrite lookup_app in B'.
        assert (walk h 0 (q ++ [k0]) = Some c) as Hc1 by (apply walk_snoc; exists x; auto).
        rewrite Hc1 in B'; exact B'.
      + (* on the way to the new value *)
        assert (lookup h' 0 p = Some v') as E3 by (rewrite Lk; destruct (path_eqb_spec p p); [reflexivity|congruence]).
        rewrite Es, lookup_app, Hc in E3; rewrite (B s) in E3; discriminate.
    - destruct (tree_del kc h 0 k) as [h'|e] eqn:E; [|exact T].
      destruct (parse kc k) as [p|] eqn:Ep.
      + destruct (lookup h 0 p) as [v|] eqn:Ev.
        * destruct (tree_del_ok b loc h k p v I Ep Ev) as (h2 & E2 & _ & _ & _ & _ & _ & C).
          assert (h2 = h') as -> by congruence. exact (C T).
        * rewrite tree_del_absent in E by (rewrite Ep; exact Ev); discriminate.
      + rewrite tree_del_absent in E by (rewrite Ep; exact Logic.I); discriminate.
    - destruct (tree_get kc h 0 k); exact T.
    - destruct (tree_getitem kc h 0 k); exact T.
    - destruct (tree_len h 0); exact T.
  Qed.

  Lemma tidy_final : forall ops h m, Rel h m -> tidy h -> forallb no_projection ops = true ->
    tidy (final (tree_step kc vc) h ops).
  Proof.
    induction ops as [|o ops IH]; intros h m R T H; [exact T|].
    cbn [forallb] in H; apply andb_prop in H; destruct H as [H1 H2].
    unfold final; cbn [fold_left].
    apply (IH _ (fst (map_step kc vc m o))); [apply step_refines; exact R| |exact H2].
    apply (tidy_step h m o R T H1).
  Qed.

  Lemma tidy_empty : tidy (tree_empty (V := V)).
  Proof.
    intros x q Hx k c E; unfold edge in E.
    destruct q as [|k0 q]; [cbn [walk] in Hx; injection Hx as <-; discriminate|discriminate].
  Qed.

  Lemma contains_tidy : forall h m k p, Rel h m -> tidy h -> parse kc k = Some p -> p <> [] ->
    (tree_contains kc h 0 k = Ok true <-> leads_to_value m p) /\
    (tree_contains kc h 0 k = Ok false <-> ~ leads_to_value m p).
  Proof.
    intros h m k p (b & loc & (W & _) & Hnd & Hl) T Ep Hne.
    rewrite tree_contains_spec, Ep.
    assert (match walk h 0 p with Some _ => true | None => false end = true <-> leads_to_value m p) as G.
    { unfold leads_to_value; destruct p as [|k0 p0 _] using rev_ind; [congruence|].
      destruct (walk h 0 (p0 ++ [k0])) as [n|] eqn:E; split; auto.
      - intros _; pose proof E as E'; apply walk_snoc in E'; destruct E' as (x & Hx & Ed).
        assert (n < length h) as An by (apply (wf_edge_alloc _ _ W _ _ _ Ed)).
        destruct (bfs_values_spec loc h n W An) as (l & _ & _ & Hin & _).
        destruct l as [|[s v] l].
        + exfalso; apply (T x p0 Hx k0 n Ed); intros s.
          destruct (lookup h n s) as [v|] eqn:Es; [|reflexivity].
          apply Hin in Es; destruct Es.
        + exists s; rewrite <- Hl, lookup_app, E.
          assert (lookup h n s = Some v) as -> by (apply Hin; left; reflexivity); discriminate.
      - discriminate.
      - intros (q & Hq); exfalso; apply Hq; rewrite <- Hl, lookup_app, E; reflexivity. }
    destruct (walk h 0 p); split; split; intros H; try (apply G; congruence); try congruence.
    - exfalso; apply H, G; reflexivity.
    - apply G in H; discriminate.
    - intros H'; apply G in H'; discriminate.
  Qed.

  Lemma contains_value : forall h m k p, Rel h m -> parse kc k = Some p -> leads_to_value m p ->
    tree_contains kc h 0 k = Ok true.
  Proof.
    intros h m k p (b & loc & _ & _ & Hl) Ep (q & Hq); rewrite tree_contains_spec, Ep.
    rewrite <- Hl, lookup_app in Hq; destruct (walk h 0 p); [reflexivity|congruence].
  Qed.

  (** *** Life after a projection *)
  Lemma step_local : forall b loc h m o, Inv b loc h -> NoDup (dkeys m) -> (forall p, lookup h 0 p = dget path_eqb m p) ->
    let h' := fst (tree_step kc vc h o) in let m' := fst (map_step kc vc m o) in
    exists loc', Inv b loc' h' /\ agree loc loc' (length h) /\ local_frame loc h h' /\ length h <= length h' /\
      NoDup (dkeys m') /\ (forall p, lookup h' 0 p = dget path_eqb m' p) /\
      (forall q n, walk h 0 q = Some n -> (match o with ODel _ => leads_to_value m' q | _ => True end) -> walk h' 0 q = Some n).
  Proof.
    intros b loc h m o I Hnd Hl h' m'.
    assert (Rel h' m') as R'.
    { apply step_refines; exists b, loc; auto. }
    assert (Same : h' = h -> m' = m -> exists loc', Inv b loc' h' /\ agree loc loc' (length h) /\ local_frame loc h h' /\ length h <= length h' /\
      NoDup (dkeys m') /\ (forall p, lookup h' 0 p = dget path_eqb m' p) /\
      (forall q n, walk h 0 q = Some n -> (match o with ODel _ => leads_to_value m' q | _ => True end) -> walk h' 0 q = Some n)).
    { intros -> ->; exists loc; split; [exact I|]; split; [intros i _; reflexivity|]; split; [intros i _ _; auto|].
      split; [lia|]; split; [exact Hnd|]; split; [exact Hl|auto]. }
    destruct o as [k v|k|k|k| |ks]; unfold h', m' in *; cbn [tree_step map_step] in *.
    - destruct (match v with Some v' => vc v' | None => false end) eqn:Ev.
      + destruct v as [v'|]; [|discriminate].
        destruct (parse kc k) as [p|] eqn:Ep.
        * destruct (tree_set_ok b loc h k p v' I Ep Ev) as (loc' & h2 & E2 & I' & A & L & _ & Lk & F & Mono & _).
          destruct k as [s|]; [|discriminate]; rewrite E2, ?Ev, ?Ep in *; cbn [fst] in *.
          exists loc'; split; [exact I'|]; split; [exact A|]; split; [exact F|]; split; [exact L|].
          split; [apply (NoDup_dset path_eqb path_eqb_spec); exact Hnd|]; split.
          -- intros q; rewrite Lk, (dget_dset path_eqb path_eqb_spec), Hl; reflexivity.
          -- intros q n Hq _; apply Mono; exact Hq.
        * apply Same.
          -- assert (tree_set kc vc h 0 k (Some v') = Err EKeyError) as ->; [|reflexivity].
             unfold tree_set; destruct k as [s|]; [|reflexivity]; rewrite Ev.
             destruct (keys_cases (KStr s)) as [(_ & E & _)|[(E & E1 & _)|(p & _ & _ & E & _)]]; [rewrite E; reflexivity|congruence|congruence].
          -- destruct k; rewrite ?Ev, ?Ep; reflexivity.
      + apply Same.
        * unfold tree_set; destruct k as [s|]; [|reflexivity]; destruct v as [v'|]; [rewrite Ev|]; reflexivity.
        * destruct k; [|reflexivity]; destruct v as [v'|]; [rewrite Ev|]; reflexivity.
    - destruct (parse kc k) as [p|] eqn:Ep.
      + destruct (dget path_eqb m p) as [v|] eqn:Ev.
        * destruct (tree_del_ok b loc h k p v I Ep) as (h2 & E2 & I' & L & Lk & F & Back & _); [rewrite Hl; exact Ev|].
          rewrite E2 in *; cbn [fst] in *.
          assert (forall q, lookup h2 0 q = dget path_eqb (ddel path_eqb m p) q) as Lk2.
          { intros q; rewrite Lk; destruct (path_eqb_spec q p) as [->|Hq].
            - rewrite (dget_ddel_same path_eqb path_eqb_spec) by exact Hnd; reflexivity.
            - rewrite (dget_ddel_other path_eqb path_eqb_spec) by congruence; apply Hl. }
          exists loc; split; [exact I'|]; split; [intros i _; reflexivity|]; split; [exact F|]; split; [lia|].
          split; [apply NoDup_ddel; exact Hnd|]; split; [exact Lk2|].
          intros q n Hq (s & Hs); rewrite <- Lk2, lookup_app in Hs.
          destruct (walk h2 0 q) as [n'|] eqn:Eq; [|congruence].
          apply Back in Eq; congruence.
        * apply Same; [|reflexivity]; rewrite tree_del_absent by (rewrite Ep, Hl; exact Ev); reflexivity.
      + apply Same; [|reflexivity]; rewrite tree_del_absent by (rewrite Ep; exact Logic.I); reflexivity.
    - apply Same; [destruct (tree_get kc h 0 k); reflexivity|destruct (parse kc k); reflexivity].
    - apply Same; [destruct (tree_getitem kc h 0 k); reflexivity|].
      destruct (parse kc k) as [p|]; [|reflexivity]; destruct (dget path_eqb m p); reflexivity.
    - apply Same; [destruct (tree_len h 0)|]; reflexivity.
    - destruct (project_ok ks b loc h I) as (loc' & h2 & res & E & I' & A & L & Lk & Mono & F & _).
      rewrite E in *; assert (fst (match res with Ok _ => (h2, RUnit (V := V)) | Err e => (h2, RErr e) end) = h2) as Ef by (destruct res; reflexivity).
      rewrite Ef in *; cbn [fst] in *.
      exists loc'; split; [exact I'|]; split; [exact A|]; split; [exact F|]; split; [exact L|]; split; [exact Hnd|]; split.
      + intros p; rewrite Lk; apply Hl.
      + intros q n Hq _; apply Mono; exact Hq.
  Qed.

  Lemma leads_prefix : forall m q p, prefix q p -> leads_to_value m p -> @leads_to_value V m q.
  Proof. intros m q p (s & ->) (t & H); exists (s ++ t); rewrite app_assoc; exact H. Qed.

  (** What lies in the local nodes stays. *)
  Lemma local_lookup_frame : forall loc loc' h h' r ps, WF loc h -> WF loc' h' -> agree loc loc' (length h) -> local_frame loc h h' ->
    length h <= length h' -> local_root loc h r -> in_ps ps loc h r ->
    forall q, (forall p, In p ps -> ~ prefix p q) -> lookup h' r q = lookup h r q.
  Proof.
    intros loc loc' h h' r ps W W' A F L (Lr & Hr & Hrp) (G1 & G2) q Hout.
    assert (Fc : forall i, i < length h -> loc i = true -> nchilds (hget h' i) = nchilds (hget h i)) by (intros i Hi Li; apply F; assumption).
    destruct (walk_frame loc loc' h h' r W W' A Hr Lr Fc) as [W1 W2].
    pose proof (gate_frame loc loc' h h' r W W' A Hr Lr Fc) as Gf.
    unfold lookup; destruct (walk h r q) as [n|] eqn:E.
    - destruct (loc n) eqn:Ln.
      + destruct (W1 q n E Ln) as [-> _]; apply F; [|exact Ln]; apply (walk_alloc _ _ _ _ _ W Hr E).
      + destruct (walk_gate loc h r W Lr q n E Ln) as (q1 & q2 & g & -> & G & _).
        exfalso; apply (Hout q1 (G1 _ _ G)); exists q2; reflexivity.
    - destruct (walk h' r q) as [n|] eqn:E'; [|reflexivity]. destruct (loc' n) eqn:Ln.
      + destruct (W2 q n E' Ln); congruence.
      + assert (Lr' : loc' r = true) by (rewrite A by exact Hr; exact Lr).
        destruct (walk_gate loc' h' r W' Lr' q n E' Ln) as (q1 & q2 & g & -> & G & _).
        exfalso; apply Gf in G; apply (Hout q1 (G1 _ _ G)); exists q2; reflexivity.
  Qed.

  Lemma local_none : forall b loc h r ps, Inv b loc h -> b <= r -> local_root loc h r -> in_ps ps loc h r ->
    forall q, (forall p, In p ps -> ~ prefix p q) -> lookup h r q = None.
  Proof.
    intros b loc h r ps (W & Lv & Lout) B (Lr & Hr & Hrp) (G1 & G2) q Hout.
    unfold lookup; destruct (walk h r q) as [n|] eqn:E; [|reflexivity].
    destruct (loc n) eqn:Ln.
    - apply Lv; [|exact Ln]. pose proof (walk_rank _ _ _ _ _ W E) as R; unfold rank in R; rewrite Lr, Ln in R; lia.
    - destruct (walk_gate loc h r W Lr q n E Ln) as (q1 & q2 & g & -> & G & _).
      exfalso; apply (Hout q1 (G1 _ _ G)); exists q2; reflexivity.
  Qed.

  (** The local tree's view after any later history of the source. *)
  Lemma local_view : forall ops b loc h m r ps,
    Inv b loc h -> NoDup (dkeys m) -> (forall p, lookup h 0 p = dget path_eqb m p) ->
    local_root loc h r -> in_ps ps loc h r ->
    let h' := final (tree_step kc vc) h ops in
    (forall q, (forall p, In p ps -> ~ prefix p q) -> lookup h' r q = lookup h r q) /\
    (forall p q, In p ps -> prefix p q -> (forall g n, gate loc h r g n -> walk h 0 g = Some n \/ ~ prefix g p) ->
       kept kc vc m p ops -> lookup h' r q = lookup h' 0 q).
  Proof.
    induction ops as [|o ops IH]; intros b loc h m r ps I Hnd Hl LR (G1 & G2) h'.
    - unfold h', final; cbn [fold_left]; destruct I as (W & Lv & Lout); destruct LR as (Lr & Hr & Hrp); split; [reflexivity|].
      intros p q Hp (s & ->) Alive _.
      destruct (G2 p Hp) as (g & n & Pg & G).
      destruct (Alive g n G) as [A|A]; [|contradiction].
      destruct Pg as (t & ->).
      rewrite <- app_assoc, !lookup_app, A, (gate_walk _ _ _ _ _ G); reflexivity.
    - destruct (step_local b loc h m o I Hnd Hl) as (loc' & I' & A & F & L & Hnd' & Hl' & Keep).
      assert (W : WF loc h) by apply I. assert (W' : WF loc' (fst (tree_step kc vc h o))) by apply I'.
      pose proof (local_lookup_frame loc loc' h _ r ps W W' A F L LR (conj G1 G2)) as Out.
      destruct LR as (Lr & Hr & Hrp).
      assert (forall q n, gate loc' (fst (tree_step kc vc h o)) r q n <-> gate loc h r q n) as Gf.
      { apply gate_frame; auto; intros i Hi Li; apply F; assumption. }
      destruct (IH b loc' (fst (tree_step kc vc h o)) (fst (map_step kc vc m o)) r ps I' Hnd' Hl') as [H1 H2].
      + split; [rewrite A by exact Hr; exact Lr|]; split; [lia|]; destruct (F r Hr Lr) as (_ & -> & _); exact Hrp.
      + split.
        * intros q n G; apply (G1 q n), Gf; exact G.
        * intros p Hp; destruct (G2 p Hp) as (q & n & Pq & G); exists q, n; split; [exact Pq|apply Gf; exact G].
      + unfold h', final; cbn [fold_left]; split; [intros q Hq; rewrite <- (Out q Hq); apply H1, Hq|].
        intros p q Hp Pq Alive (K1 & K2); apply (H2 p q Hp Pq); [|exact K2].
        intros g n G; apply Gf in G; destruct (Alive g n G) as [Al|Al]; [|right; exact Al].
        assert ({prefix g p} + {~ prefix g p}) as [P|P].
        { destruct (list_eq_dec string_dec (firstn (length g) p) g) as [E|E].
          - left; exists (skipn (length g) p); rewrite <- E at 1; symmetry; apply firstn_skipn.
          - right; intros (s & ->); apply E; rewrite firstn_app, firstn_all, Nat.sub_diag, firstn_O, app_nil_r; reflexivity. }
        * left; apply Keep; [exact Al|]; destruct o; auto; apply (leads_prefix _ g p P); exact K1.
        * right; exact P.
  Qed.
End Proofs.
