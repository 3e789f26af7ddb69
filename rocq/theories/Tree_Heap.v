(** Lemmas about the node heap: reads after writes, walks, breadth-first search,
    creation of nodes, pruning. *)
From Verif Require Import Base Tree_Model Tree_Spec.

Section Heap.
  Context {V : Type}.
  Implicit Types (h : heap V).

  Lemma length_hset : forall h i n, length (hset h i n) = length h.
  Proof. induction h as [|x r IH]; intros [|i] n; cbn [hset length]; auto. Qed.

  Lemma hget_hset_same : forall h i n, i < length h -> hget (hset h i n) i = n.
  Proof.
    unfold hget; induction h as [|x r IH]; intros [|i] n H; cbn [hset length nth] in *; try lia; auto.
    apply IH; lia.
  Qed.

  Lemma hget_hset_other : forall h i j n, i <> j -> hget (hset h i n) j = hget h j.
  Proof.
    unfold hget; induction h as [|x r IH]; intros [|i] [|j] n H; cbn [hset nth]; auto; try lia.
  Qed.

  Lemma hget_app_old : forall h l i, i < length h -> hget (h ++ l) i = hget h i.
  Proof. intros; unfold hget; apply app_nth1; assumption. Qed.

  Lemma hget_app_new : forall h n, hget (h ++ [n]) (length h) = n.
  Proof. intros; unfold hget; rewrite app_nth2, Nat.sub_diag by lia; reflexivity. Qed.

  Lemma hget_out : forall h i, length h <= i -> hget h i = dummy.
  Proof. intros; unfold hget; apply nth_overflow; assumption. Qed.

  Lemma length_set_val : forall h i v, length (set_val h i v) = length h.
  Proof. intros; apply length_hset. Qed.
  Lemma length_set_childs : forall h i v, length (set_childs h i v) = length h.
  Proof. intros; apply length_hset. Qed.

  Lemma hset_out : forall h i n, length h <= i -> hset h i n = h.
  Proof. induction h as [|x r IH]; intros [|i] n H; cbn [hset length] in *; auto; try lia; rewrite IH; auto; lia. Qed.

  Lemma nchilds_set_val : forall h i v j, nchilds (hget (set_val h i v) j) = nchilds (hget h j).
  Proof.
    intros; unfold set_val. destruct (Nat.eq_dec i j) as [->|Hn].
    - destruct (Nat.lt_ge_cases j (length h)).
      + rewrite hget_hset_same by assumption; reflexivity.
      + rewrite hset_out by assumption; reflexivity.
    - rewrite hget_hset_other by assumption; reflexivity.
  Qed.
  Lemma nparent_set_val : forall h i v j, nparent (hget (set_val h i v) j) = nparent (hget h j).
  Proof.
    intros; unfold set_val. destruct (Nat.eq_dec i j) as [->|Hn].
    - destruct (Nat.lt_ge_cases j (length h)).
      + rewrite hget_hset_same by assumption; reflexivity.
      + rewrite hset_out by assumption; reflexivity.
    - rewrite hget_hset_other by assumption; reflexivity.
  Qed.
  Lemma nname_set_val : forall h i v j, nname (hget (set_val h i v) j) = nname (hget h j).
  Proof.
    intros; unfold set_val. destruct (Nat.eq_dec i j) as [->|Hn].
    - destruct (Nat.lt_ge_cases j (length h)).
      + rewrite hget_hset_same by assumption; reflexivity.
      + rewrite hset_out by assumption; reflexivity.
    - rewrite hget_hset_other by assumption; reflexivity.
  Qed.
  Lemma nval_set_val_same : forall h i v, i < length h -> nval (hget (set_val h i v) i) = v.
  Proof. intros; unfold set_val; rewrite hget_hset_same by assumption; reflexivity. Qed.
  Lemma nval_set_val_other : forall h i v j, i <> j -> nval (hget (set_val h i v) j) = nval (hget h j).
  Proof. intros; unfold set_val; rewrite hget_hset_other by assumption; reflexivity. Qed.

  Lemma nval_set_childs : forall h i v j, nval (hget (set_childs h i v) j) = nval (hget h j).
  Proof.
    intros; unfold set_childs. destruct (Nat.eq_dec i j) as [->|Hn].
    - destruct (Nat.lt_ge_cases j (length h)).
      + rewrite hget_hset_same by assumption; reflexivity.
      + rewrite hset_out by assumption; reflexivity.
    - rewrite hget_hset_other by assumption; reflexivity.
  Qed.
  Lemma nparent_set_childs : forall h i v j, nparent (hget (set_childs h i v) j) = nparent (hget h j).
  Proof.
    intros; unfold set_childs. destruct (Nat.eq_dec i j) as [->|Hn].
    - destruct (Nat.lt_ge_cases j (length h)).
      + rewrite hget_hset_same by assumption; reflexivity.
      + rewrite hset_out by assumption; reflexivity.
    - rewrite hget_hset_other by assumption; reflexivity.
  Qed.
  Lemma nname_set_childs : forall h i v j, nname (hget (set_childs h i v) j) = nname (hget h j).
  Proof.
    intros; unfold set_childs. destruct (Nat.eq_dec i j) as [->|Hn].
    - destruct (Nat.lt_ge_cases j (length h)).
      + rewrite hget_hset_same by assumption; reflexivity.
      + rewrite hset_out by assumption; reflexivity.
    - rewrite hget_hset_other by assumption; reflexivity.
  Qed.
  Lemma nchilds_set_childs_same : forall h i v, i < length h -> nchilds (hget (set_childs h i v) i) = v.
  Proof. intros; unfold set_childs; rewrite hget_hset_same by assumption; reflexivity. Qed.
  Lemma nchilds_set_childs_other : forall h i v j, i <> j -> nchilds (hget (set_childs h i v) j) = nchilds (hget h j).
  Proof. intros; unfold set_childs; rewrite hget_hset_other by assumption; reflexivity. Qed.

  (** Edges and reads. *)
  Definition edge h p k c : Prop := dget String.eqb (nchilds (hget h p)) k = Some c.
  Definition lookup h r (p : path) : option V :=
    match walk h r p with Some n => nval (hget h n) | None => None end.
  (** Nothing stored in the subtree of [r]. *)
  Definition barren h r : Prop := forall q, lookup h r q = None.

  Lemma walk_app : forall q1 q2 h n,
    walk h n (q1 ++ q2) = match walk h n q1 with Some m => walk h m q2 | None => None end.
  Proof.
    induction q1 as [|k q1 IH]; intros q2 h n; cbn [app walk]; [reflexivity|].
    destruct (dget String.eqb (nchilds (hget h n)) k); auto.
  Qed.

  Lemma walk_snoc : forall q k h n m,
    walk h n (q ++ [k]) = Some m <-> exists p, walk h n q = Some p /\ edge h p k m.
  Proof.
    intros q k h n m; rewrite walk_app; unfold edge; destruct (walk h n q) as [p|]; cbn [walk].
    - split.
      + intros H; exists p; split; [reflexivity|].
        destruct (dget String.eqb (nchilds (hget h p)) k); congruence.
      + intros (p' & E & H); injection E as ->; rewrite H; reflexivity.
    - split; [discriminate|intros (p & E & _); discriminate].
  Qed.

  Lemma lookup_app : forall q1 q2 h n,
    lookup h n (q1 ++ q2) = match walk h n q1 with Some m => lookup h m q2 | None => None end.
  Proof. intros; unfold lookup; rewrite walk_app; destruct (walk h n q1); reflexivity. Qed.

  Lemma walk_set_val : forall q h i v n, walk (set_val h i v) n q = walk h n q.
  Proof.
    induction q as [|k q IH]; intros; cbn [walk]; [reflexivity|].
    rewrite nchilds_set_val; destruct (dget _ _ _); auto.
  Qed.

  (** The well-formedness of the heap.  [loc n] marks the nodes created by a projection;
      the others belong to the tree whose root is node 0. *)
  Record WF (loc : nat -> bool) h : Prop := {
    wf_pos : 0 < length h;
    wf_root : loc 0 = false;
    wf_root_parent : nparent (hget h 0) = None;
    wf_root_nochild : forall p k, ~ edge h p k 0;
    wf_nodup : forall p, NoDup (dkeys (nchilds (hget h p)));
    wf_edge_alloc : forall p k c, edge h p k c -> p < length h /\ c < length h;
    wf_edge_src : forall p k c, edge h p k c -> loc p = false ->
                   loc c = false /\ nparent (hget h c) = Some p /\ nname (hget h c) = Some k;
    wf_edge_loc : forall p k c, edge h p k c -> loc p = true -> loc c = true ->
                   nparent (hget h c) = Some p /\ nname (hget h c) = Some k;
    wf_parent : forall p c, nparent (hget h c) = Some p -> p < c /\ loc p = loc c /\ c < length h
  }.

  Definition rank (loc : nat -> bool) h (n : nat) : nat := if loc n then n else length h + n.

  Lemma edge_rank : forall loc h p k c, WF loc h -> edge h p k c -> rank loc h p < rank loc h c.
  Proof.
    intros loc h p k c W E; unfold rank.
    destruct (wf_edge_alloc _ _ W _ _ _ E) as [Hp Hc].
    destruct (loc p) eqn:Lp, (loc c) eqn:Lc.
    - destruct (wf_edge_loc _ _ W _ _ _ E Lp Lc) as [Hpar _].
      apply (wf_parent _ _ W) in Hpar; lia.
    - lia.
    - destruct (wf_edge_src _ _ W _ _ _ E Lp) as [H _]; congruence.
    - destruct (wf_edge_src _ _ W _ _ _ E Lp) as [_ [H _]].
      apply (wf_parent _ _ W) in H; lia.
  Qed.

  Lemma walk_cons : forall h n k q m, walk h n (k :: q) = Some m <->
    exists c, edge h n k c /\ walk h c q = Some m.
  Proof.
    intros; cbn [walk]; unfold edge; destruct (dget String.eqb (nchilds (hget h n)) k) as [c|]; split.
    - intros H; exists c; auto.
    - intros (c' & E & H); congruence.
    - discriminate.
    - intros (c' & E & _); discriminate.
  Qed.

  Lemma walk_rank : forall loc h q n m, WF loc h -> walk h n q = Some m ->
    rank loc h n + length q <= rank loc h m.
  Proof.
    intros loc h q; induction q as [|k q IH]; intros n m W H.
    - cbn [walk] in H; injection H as ->; cbn [length]; lia.
    - apply walk_cons in H; destruct H as (c & E & H).
      apply (edge_rank _ _ _ _ _ W) in E; apply (IH _ _ W) in H; cbn [length]; lia.
  Qed.

  Lemma walk_alloc : forall loc h q n m, WF loc h -> n < length h -> walk h n q = Some m -> m < length h.
  Proof.
    intros loc h q; induction q as [|k q IH]; intros n m W Hn H.
    - cbn [walk] in H; injection H as ->; exact Hn.
    - apply walk_cons in H; destruct H as (c & E & H).
      apply (IH c m W); [|exact H]; apply (wf_edge_alloc _ _ W) in E; tauto.
  Qed.

  Lemma walk_length : forall loc h q n m, WF loc h -> n < length h -> walk h n q = Some m ->
    length q < 2 * length h.
  Proof.
    intros loc h q n m W Hn H; pose proof (walk_rank _ _ _ _ _ W H) as R.
    pose proof (walk_alloc _ _ _ _ _ W Hn H) as A.
    unfold rank in R; destruct (loc n), (loc m); lia.
  Qed.

  Lemma walk_src : forall loc h q n m, WF loc h -> loc n = false -> walk h n q = Some m -> loc m = false.
  Proof.
    intros loc h q; induction q as [|k q IH]; intros n m W Hn H.
    - cbn [walk] in H; injection H as ->; exact Hn.
    - apply walk_cons in H; destruct H as (c & E & H).
      apply (IH c m W); [|exact H]; apply (wf_edge_src _ _ W _ _ _ E Hn).
  Qed.

  (** From the root of the tree a node is reached by one path only. *)
  Lemma walk_inj : forall loc h, WF loc h -> forall q1 q2 n,
    walk h 0 q1 = Some n -> walk h 0 q2 = Some n -> q1 = q2.
  Proof.
    intros loc h W q1; induction q1 as [|k1 q1 IH] using rev_ind; intros q2 n H1 H2.
    - cbn [walk] in H1; injection H1 as <-.
      destruct q2 as [|k2 q2] using rev_ind; [reflexivity|].
      apply walk_snoc in H2; destruct H2 as (p & Hp & E).
      assert (loc p = false) as Lp by (apply (walk_src _ _ _ _ _ W (wf_root _ _ W) Hp)).
      destruct (wf_edge_src _ _ W _ _ _ E Lp) as (_ & H & _).
      rewrite (wf_root_parent _ _ W) in H; discriminate.
    - apply walk_snoc in H1; destruct H1 as (p & Hp & E).
      assert (loc p = false) as Lp by (apply (walk_src _ _ _ _ _ W (wf_root _ _ W) Hp)).
      destruct (wf_edge_src _ _ W _ _ _ E Lp) as (_ & Hpar & Hname).
      destruct q2 as [|k2 q2 _] using rev_ind.
      + cbn [walk] in H2; injection H2 as <-.
        rewrite (wf_root_parent _ _ W) in Hpar; discriminate.
      + apply walk_snoc in H2; destruct H2 as (p' & Hp' & E').
        assert (loc p' = false) as Lp' by (apply (walk_src _ _ _ _ _ W (wf_root _ _ W) Hp')).
        destruct (wf_edge_src _ _ W _ _ _ E' Lp') as (_ & Hpar' & Hname').
        rewrite Hpar in Hpar'; rewrite Hname in Hname'.
        injection Hpar' as <-; injection Hname' as <-.
        rewrite (IH q2 p Hp Hp'); reflexivity.
  Qed.

  (** Breadth-first search, annotated with paths. *)
  Definition expand h (layer : list (path * nat)) : list (path * nat) :=
    flat_map (fun pn => map (fun kc => (fst pn ++ [fst kc], snd kc)) (nchilds (hget h (snd pn)))) layer.

  Fixpoint bfsp (fuel : nat) h (layer : list (path * nat)) : option (list (path * nat)) :=
    match layer with
    | [] => Some []
    | _ => match fuel with
           | 0 => None
           | S f => match bfsp f h (expand h layer) with
                    | None => None
                    | Some r => Some (layer ++ r)
                    end
           end
    end.

  Lemma expand_snd : forall h layer,
    map snd (expand h layer) = flat_map (fun n => dvals (nchilds (hget h n))) (map snd layer).
  Proof.
    intros h layer; unfold expand; induction layer as [|[p n] r IH]; cbn [flat_map map]; [reflexivity|].
    rewrite map_app; f_equal; [rewrite map_map; reflexivity|exact IH].
  Qed.

  Lemma bfs_bfsp : forall fuel h layer,
    bfs fuel h (map snd layer) = match bfsp fuel h layer with Some l => Some (map snd l) | None => None end.
  Proof.
    induction fuel as [|f IH]; intros h layer; destruct layer as [|x r]; try reflexivity.
    cbn [bfs bfsp map].
    change (snd x :: map snd r) with (map snd (x :: r)).
    rewrite <- expand_snd, IH.
    destruct (bfsp f h (expand h (x :: r))) as [l|]; [|reflexivity].
    rewrite <- map_app; reflexivity.
  Qed.

  (** [layer] is exactly the set of nodes at depth [k] below [r], each path once. *)
  Definition is_layer h (r k : nat) (layer : list (path * nat)) : Prop :=
    NoDup (map fst layer) /\
    forall p n, In (p, n) layer <-> length p = k /\ walk h r p = Some n.

  Lemma NoDup_app_disj : forall {A} (l1 l2 : list A),
    NoDup l1 -> NoDup l2 -> (forall x, In x l1 -> In x l2 -> False) -> NoDup (l1 ++ l2).
  Proof.
    intros A l1; induction l1 as [|a l1 IH]; intros l2 H1 H2 Hd; cbn [app]; [exact H2|].
    inversion H1 as [|x l Hni Hnd]; subst; constructor.
    - rewrite in_app_iff; intros [H|H]; [contradiction|].
      apply (Hd a); [left; reflexivity|exact H].
    - apply IH; try assumption; intros x Hx; apply Hd; right; exact Hx.
  Qed.

  Lemma NoDup_map_inj : forall {A B} (f : A -> B) l,
    (forall x y, In x l -> In y l -> f x = f y -> x = y) -> NoDup l -> NoDup (map f l).
  Proof.
    intros A B f l; induction l as [|a l IH]; intros Hinj Hnd; cbn [map]; [constructor|].
    inversion Hnd as [|x l' Hni Hnd']; subst; constructor.
    - intros Hi; apply in_map_iff in Hi; destruct Hi as (y & E & Hy).
      apply Hni; rewrite <- (Hinj y a); [exact Hy|right; exact Hy|left; reflexivity|exact E].
    - apply IH; [|exact Hnd']; intros x y Hx Hy; apply Hinj; right; assumption.
  Qed.

  Lemma layer_expand : forall loc h r k layer, WF loc h ->
    is_layer h r k layer -> is_layer h r (S k) (expand h layer).
  Proof.
    intros loc h r k layer W [Hnd Hin]; split.
    - unfold expand.
      assert (forall l, (forall p n, In (p, n) l -> length p = k) -> NoDup (map fst l) ->
              NoDup (map fst (flat_map (fun pn => map (fun kc => (fst pn ++ [fst kc], snd kc)) (nchilds (hget h (snd pn)))) l))) as G.
      { induction l as [|[p n] l IH]; intros Hlen Hn; cbn [flat_map map]; [constructor|].
        cbn [map fst] in Hn; inversion Hn as [|x l' Hni Hn']; subst.
        rewrite map_app; apply NoDup_app_disj.
        - rewrite map_map; cbn [fst snd].
          replace (map (fun x : string * nat => p ++ [fst x]) (nchilds (hget h n)))
            with (map (fun k0 => p ++ [k0]) (dkeys (nchilds (hget h n)))) by (unfold dkeys; rewrite map_map; reflexivity).
          apply NoDup_map_inj; [|apply (wf_nodup _ _ W)].
          intros x y _ _ E; apply app_inj_tail in E; apply E.
        - apply IH; [|exact Hn']; intros p' n' Hi; apply (Hlen p' n'); right; exact Hi.
        - intros x Hx1 Hx2; rewrite map_map in Hx1; cbn [fst snd] in Hx1.
          apply in_map_iff in Hx1; destruct Hx1 as (kc & E1 & _).
          apply in_map_iff in Hx2; destruct Hx2 as ([x' n'] & E2 & Hx2); cbn [fst] in E2; subst x'.
          apply in_flat_map in Hx2; destruct Hx2 as ([p2 n2] & Hi2 & Hx2); cbn [fst snd] in Hx2.
          apply in_map_iff in Hx2; destruct Hx2 as (kc2 & E2 & _).
          injection E2 as E2 _; subst x.
          apply app_inj_tail in E2; destruct E2 as [-> _].
          apply Hni; change p with (fst (p, n2)); apply in_map; exact Hi2. }
      apply G; [|exact Hnd]; intros p n Hi; apply Hin in Hi; tauto.
    - intros p n; unfold expand; rewrite in_flat_map; split.
      + intros ([p0 n0] & Hi & Hx); cbn [fst snd] in Hx.
        apply in_map_iff in Hx; destruct Hx as ([k0 c0] & E & Hc); cbn [fst snd] in E.
        injection E as <- <-. apply Hin in Hi; destruct Hi as [Hl Hw].
        split; [rewrite app_length; cbn [length]; lia|].
        apply walk_snoc; exists n0; split; [exact Hw|].
        unfold edge; apply (In_dget String.eqb String.eqb_spec); [apply (wf_nodup _ _ W)|exact Hc].
      + intros [Hl Hw].
        destruct p as [|k0 p0 _] using rev_ind; [cbn [length] in Hl; lia|].
        apply walk_snoc in Hw; destruct Hw as (m & Hm & E).
        rewrite app_length in Hl; cbn [length] in Hl.
        exists (p0, m); split; [apply Hin; split; [lia|exact Hm]|].
        cbn [fst snd]; apply in_map_iff; exists (k0, n); split; [reflexivity|].
        apply (dget_In String.eqb String.eqb_spec); exact E.
  Qed.

  Lemma bfsp_spec : forall loc h r fuel k layer, WF loc h -> r < length h ->
    is_layer h r k layer -> 2 * length h <= fuel + k ->
    exists l, bfsp fuel h layer = Some l /\ NoDup (map fst l) /\
      (forall p n, In (p, n) l <-> k <= length p /\ walk h r p = Some n) /\
      (forall i j p q, i <= j -> nth_error (map fst l) i = Some p -> nth_error (map fst l) j = Some q ->
         length p <= length q).
  Proof.
    intros loc h r fuel; induction fuel as [|f IH]; intros k layer W Hr HL Hf.
    - assert (layer = []) as ->.
      { destruct layer as [|[p n] l]; [reflexivity|].
        destruct HL as [_ HL]; destruct (HL p n) as [H _].
        destruct H as [Hl Hw]; [left; reflexivity|].
        apply (walk_length _ _ _ _ _ W Hr) in Hw; lia. }
      exists []; cbn [bfsp map]; repeat split; try constructor; try easy.
      + intros (Hk & Hw); apply (walk_length _ _ _ _ _ W Hr) in Hw; cbn [In]; lia.
      + intros i j p q _ H; destruct i; discriminate.
    - destruct (IH (S k) (expand h layer) W Hr (layer_expand _ _ _ _ _ W HL) ltac:(lia))
        as (l & El & Hnd & Hin & Hord).
      destruct layer as [|x rest].
      + exists []; cbn [bfsp map]; repeat split; try constructor; try easy.
        * intros (Hk & Hw); destruct HL as [_ HL].
          (* a node at depth >= k would give a node at depth k *)
          assert (exists q1 q2, p = q1 ++ q2 /\ length q1 = k) as (q1 & q2 & -> & Hq).
          { exists (firstn k p), (skipn k p); split; [symmetry; apply firstn_skipn|].
            rewrite firstn_length; lia. }
          rewrite walk_app in Hw; destruct (walk h r q1) as [m|] eqn:E; [|discriminate].
          destruct (proj2 (HL q1 m) (conj Hq E)).
        * intros i j p q _ H; destruct i; discriminate.
      + remember (x :: rest) as layer eqn:EL.
        assert (bfsp (S f) h layer = Some (layer ++ l)) as E.
        { rewrite EL; cbn [bfsp]; rewrite <- EL, El; reflexivity. }
        exists (layer ++ l); split; [exact E|].
        destruct HL as [HLn HLi]; split; [|split].
        * rewrite map_app; apply NoDup_app_disj; try assumption.
          intros p Hp1 Hp2; apply in_map_iff in Hp1; destruct Hp1 as ([p1 n1] & E1 & Hp1).
          apply in_map_iff in Hp2; destruct Hp2 as ([p2 n2] & E2 & Hp2).
          cbn [fst] in *; subst. apply HLi in Hp1; apply Hin in Hp2; lia.
        * intros p n; rewrite in_app_iff, HLi, Hin; split.
          -- intros [[H1 H2]|[H1 H2]]; split; try assumption; lia.
          -- intros [H1 H2]; destruct (Nat.eq_dec (length p) k); [left|right]; split; try assumption; lia.
        * intros i j p q Hij Hi Hj; rewrite map_app in Hi, Hj.
          assert (forall z y, nth_error (map fst layer) z = Some y -> length y = k) as A.
          { intros z y Hz; apply nth_error_In in Hz; apply in_map_iff in Hz.
            destruct Hz as ([y' n'] & <- & Hz); apply HLi in Hz; cbn [fst]; lia. }
          assert (forall z y, nth_error (map fst l) z = Some y -> S k <= length y) as B.
          { intros z y Hz; apply nth_error_In in Hz; apply in_map_iff in Hz.
            destruct Hz as ([y' n'] & <- & Hz); apply Hin in Hz; cbn [fst]; lia. }
          destruct (Nat.lt_ge_cases i (length (map fst layer))) as [Li|Li];
          destruct (Nat.lt_ge_cases j (length (map fst layer))) as [Lj|Lj].
          -- rewrite nth_error_app1 in Hi, Hj by assumption.
             rewrite (A _ _ Hi), (A _ _ Hj); lia.
          -- rewrite nth_error_app1 in Hi by assumption; rewrite nth_error_app2 in Hj by assumption.
             rewrite (A _ _ Hi); apply B in Hj; lia.
          -- lia.
          -- rewrite nth_error_app2 in Hi, Hj by assumption.
             apply (Hord (i - length (map fst layer)) (j - length (map fst layer))); try assumption; lia.
  Qed.

  Lemma layer0 : forall h r, is_layer h r 0 [([], r)].
  Proof.
    intros h r; split.
    - cbn [map fst]; constructor; [intros []|constructor].
    - intros p n; cbn [In]; split.
      + intros [E|[]]; injection E as <- <-; split; reflexivity.
      + intros [Hl Hw]; destruct p; [|discriminate].
        cbn [walk] in Hw; injection Hw as ->; left; reflexivity.
  Qed.

  (** The breadth-first walk terminates and enumerates every path once, shallow first. *)
  Lemma bfs_spec : forall loc h r, WF loc h -> r < length h ->
    exists l, bfs (fuel_of h) h [r] = Some (map snd l) /\ NoDup (map fst l) /\
      (forall p n, In (p, n) l <-> walk h r p = Some n) /\
      (forall i j p q, i <= j -> nth_error (map fst l) i = Some p -> nth_error (map fst l) j = Some q ->
         length p <= length q).
  Proof.
    intros loc h r W Hr.
    destruct (bfsp_spec loc h r (fuel_of h) 0 [([], r)] W Hr (layer0 h r)) as (l & El & Hnd & Hin & Hord).
    { unfold fuel_of; lia. }
    exists l; split; [|split; [exact Hnd|split; [|exact Hord]]].
    - change [r] with (map snd [(@nil string, r)]); rewrite bfs_bfsp, El; reflexivity.
    - intros p n; rewrite Hin; intuition lia.
  Qed.

  Lemma somes_In : forall {A} (l : list (option A)) a, In a (somes l) <-> In (Some a) l.
  Proof.
    intros A l a; induction l as [|[x|] r IH]; cbn [somes In]; [tauto| |].
    - rewrite IH; intuition congruence.
    - rewrite IH; intuition congruence.
  Qed.

  (** Values enumerated by the iteration, with their paths. *)
  Lemma bfs_values_spec : forall loc h r, WF loc h -> r < length h ->
    exists l : list (path * V), bfs_values h r = Some (map snd l) /\ NoDup (map fst l) /\
      (forall p v, In (p, v) l <-> lookup h r p = Some v) /\
      (forall i j p q, i <= j -> nth_error (map fst l) i = Some p -> nth_error (map fst l) j = Some q ->
         length p <= length q).
  Proof.
    intros loc h r W Hr; destruct (bfs_spec loc h r W Hr) as (l & El & Hnd & Hin & Hord).
    unfold bfs_values; rewrite El.
    pose (keep := fun (pn : path * nat) => match nval (hget h (snd pn)) with Some v => [(fst pn, v)] | None => [] end).
    exists (flat_map keep l).
    assert (forall l, map snd (flat_map keep l) = somes (map (fun n => nval (hget h n)) (map snd l))) as E1.
    { clear; induction l as [|[p n] r IH]; cbn [flat_map map somes]; [reflexivity|].
      unfold keep at 1; cbn [fst snd]; destruct (nval (hget h n)); cbn [app map snd somes]; rewrite IH; reflexivity. }
    assert (forall l p v, In (p, v) (flat_map keep l) <-> exists n, In (p, n) l /\ nval (hget h n) = Some v) as E2.
    { clear; intros l p v; rewrite in_flat_map; split.
      - intros ([p' n'] & Hi & Hk); unfold keep in Hk; cbn [fst snd] in Hk.
        destruct (nval (hget h n')) as [v'|] eqn:Ev; [|destruct Hk].
        destruct Hk as [E|[]]; injection E as <- <-; exists n'; auto.
      - intros (n & Hi & Hv); exists (p, n); split; [exact Hi|].
        unfold keep; cbn [fst snd]; rewrite Hv; left; reflexivity. }
    assert (forall l x, In x (map fst (flat_map keep l)) -> In x (map fst l)) as E3.
    { intros l0 x Hx; apply in_map_iff in Hx; destruct Hx as ([p v] & <- & Hx).
      apply E2 in Hx; destruct Hx as (n & Hi & _); cbn [fst].
      change p with (fst (p, n)); apply in_map; exact Hi. }
    split; [rewrite E1; reflexivity|split; [|split]].
    - clear - Hnd E3; induction l as [|[p n] r IH]; cbn [flat_map map]; [constructor|].
      cbn [map fst] in Hnd; inversion Hnd as [|x l' Hni Hnd']; subst.
      unfold keep at 1; cbn [fst snd]; destruct (nval (hget h n)); cbn [app map fst]; [|apply IH; exact Hnd'].
      constructor; [|apply IH; exact Hnd']; intros Hi; apply Hni; apply E3; exact Hi.
    - intros p v; rewrite E2; unfold lookup; split.
      + intros (n & Hi & Hv); apply Hin in Hi; rewrite Hi; exact Hv.
      + destruct (walk h r p) as [n|] eqn:E; [|discriminate].
        intros Hv; exists n; split; [apply Hin; exact E|exact Hv].
    - clear - Hord.
      (* a sublist of a list ordered by depth is ordered by depth *)
      assert (forall l : list (path * nat),
        (forall i j p q, i <= j -> nth_error (map fst l) i = Some p -> nth_error (map fst l) j = Some q -> length p <= length q) ->
        forall i j p q, i <= j -> nth_error (map fst (flat_map keep l)) i = Some p ->
          nth_error (map fst (flat_map keep l)) j = Some q -> length p <= length q) as G.
      { clear; induction l as [|[p0 n0] r IH]; intros H i j p q Hij Hi Hj.
        - destruct i; discriminate.
        - assert (forall z y, nth_error (map fst (flat_map keep r)) z = Some y -> length p0 <= length y) as A.
          { intros z y Hz; apply nth_error_In in Hz.
            assert (In y (map fst r)) as Hy.
            { apply in_map_iff in Hz; destruct Hz as ([y' v'] & <- & Hz).
              apply in_flat_map in Hz; destruct Hz as ([p' n'] & Hi' & Hk); unfold keep in Hk; cbn [fst snd] in *.
              destruct (nval (hget h n')); [|destruct Hk]; destruct Hk as [E|[]]; injection E as <- <-.
              change p' with (fst (p', n')); apply in_map; exact Hi'. }
            apply In_nth_error in Hy; destruct Hy as (z' & Hz').
            apply (H 0 (S z') p0 y); [lia|reflexivity|exact Hz']. }
          assert (forall i j p q, i <= j -> nth_error (map fst (flat_map keep r)) i = Some p ->
             nth_error (map fst (flat_map keep r)) j = Some q -> length p <= length q) as B.
          { apply IH; intros i' j' p' q' Hij' Hi' Hj'; apply (H (S i') (S j') p' q'); [lia|exact Hi'|exact Hj']. }
          cbn [flat_map] in Hi, Hj; unfold keep at 1 in Hi; unfold keep at 1 in Hj; cbn [fst snd] in Hi, Hj.
          destruct (nval (hget h n0)) as [v0|]; cbn [app map fst] in Hi, Hj; [|apply (B i j); assumption].
          destruct i as [|i], j as [|j]; cbn [nth_error] in Hi, Hj.
          + injection Hi as <-; injection Hj as <-; lia.
          + injection Hi as <-; apply (A j q Hj).
          + lia.
          + apply (B i j); try assumption; lia. }
      apply G; exact Hord.
  Qed.

  Lemma tree_len_spec : forall loc h r, WF loc h -> r < length h ->
    exists n, tree_len h r = Ok n /\ (n = 0 <-> barren h r).
  Proof.
    intros loc h r W Hr; destruct (bfs_values_spec loc h r W Hr) as (l & El & _ & Hin & _).
    unfold tree_len; rewrite El; exists (length (map snd l)); split; [reflexivity|].
    rewrite map_length; split.
    - intros H q; destruct (lookup h r q) as [v|] eqn:E; [|reflexivity].
      apply Hin in E; destruct l; [destruct E|discriminate].
    - intros H; destruct l as [|[p v] l]; [reflexivity|].
      assert (lookup h r p = Some v) as E by (apply Hin; left; reflexivity).
      rewrite H in E; discriminate.
  Qed.
End Heap.
