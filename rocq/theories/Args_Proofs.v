(** Lemmas about the local trees of decorators. *)
From Verif Require Import Base Tree_Model Tree_Spec Tree_Heap Tree_Ops Tree_Project Tree_Proofs Args_Model.
Local Open Scope list_scope.

Section ArgsProofs.
  Context {V : Type}.
  Variable kc : string -> bool.
  Variable vc : V -> bool.
  Implicit Types h : heap V.

  (** The shape of a heap: well formed, nothing local outside. *)
  Definition Shape (loc : nat -> bool) h : Prop := WF loc h /\ forall i, length h <= i -> loc i = false.
  Lemma Shape_Inv : forall loc h, Shape loc h <-> Inv (length h) loc h.
  Proof.
    intros loc h; split.
    - intros (W & O); split; [exact W|split; [|exact O]]; intros i Hi _; rewrite hget_out by exact Hi; reflexivity.
    - intros (W & _ & O); split; assumption.
  Qed.

  Definition good_name (n : string) : Prop := kc n = true /\ no_dot n = true.
  Lemma good_parse : forall n, good_name n -> parse kc (KStr n) = Some [n].
  Proof.
    intros n (K & D); unfold parse; destruct (String.eqb_spec n sep) as [->|]; [discriminate|].
    rewrite (split_plain n D); cbn [forallb]; rewrite K; reflexivity.
  Qed.

  Lemma no_edge_to_root : forall loc h r, WF loc h -> local_root loc h r -> forall p k, ~ edge h p k r.
  Proof.
    intros loc h r W (Lr & Hr & Hrp) p k E; destruct (loc p) eqn:Lp.
    - destruct (wf_edge_loc _ _ W _ _ _ E Lp Lr); congruence.
    - destruct (wf_edge_src _ _ W _ _ _ E Lp); congruence.
  Qed.
  Lemma walk_to_root : forall loc h r, WF loc h -> local_root loc h r -> forall q y, walk h y q = Some r -> q = [] /\ y = r.
  Proof.
    intros loc h r W LR q; destruct q as [|k q _] using rev_ind; intros y H; [injection H as ->; auto|].
    apply walk_snoc in H; destruct H as (p & _ & E); elim (no_edge_to_root _ _ _ W LR _ _ E).
  Qed.

  Lemma add_one_ok : forall loc h r n v, Shape loc h -> local_root loc h r -> good_name n -> walk h r [n] = None ->
    exists loc' h', tree_set kc (fun _ => true) h r (KStr n) (Some v) = Ok h' /\ Shape loc' h' /\ agree loc loc' (length h) /\
      length h' = S (length h) /\ local_root loc' h' r /\
      (forall i, i < length h -> i <> r -> hget h' i = hget h i) /\
      (forall q, lookup h' 0 q = lookup h 0 q) /\ (forall q m, walk h 0 q = Some m -> walk h' 0 q = Some m) /\
      (forall q m, gate loc' h' r q m <-> gate loc h r q m) /\
      (forall q, lookup h' r q = if path_eqb q [n] then Some v else lookup h r q) /\
      (forall k, walk h' r [k] = if String.eqb k n then Some (length h) else walk h r [k]).
  Proof.
    intros loc h r n v (W & O) LR GN N. pose proof LR as (Lr & Hr & Hrp).
    assert (N' : dget String.eqb (nchilds (hget h r)) n = None) by (cbn [walk] in N; destruct (dget String.eqb (nchilds (hget h r)) n); [discriminate|reflexivity]).
    destruct (create_child h r n) as [h1 c] eqn:E1.
    pose proof (cc_WF loc h r n W Hr N') as W1. pose proof (cc_length h r n) as L1. pose proof (cc_id h r n) as I1.
    pose proof (cc_edge h r n Hr N') as Ed1. pose proof (cc_walk_inv h r n Hr N') as Wi1. pose proof (cc_ext h r n Hr N') as X1.
    pose proof (cc_other h r n) as O1. pose proof (cc_nval h r n Hr) as Nv1. pose proof (cc_parent_name h r n Hr) as Pn1.
    pose proof (cc_p_childs h r n Hr) as Pc1.
    rewrite E1 in W1, L1, I1, Ed1, Wi1, X1, O1, Nv1, Pn1, Pc1; cbn [fst snd] in *; subst c.
    set (loc1 := loc_ext loc h r) in *.
    assert (Lo : forall i, i < length h -> loc1 i = loc i) by (intros; apply loc_ext_old; assumption).
    assert (Ln : loc1 (length h) = true) by (unfold loc1; rewrite loc_ext_new; exact Lr).
    exists loc1, (set_val h1 (length h) (Some v)). split.
    { unfold tree_set, get_converted_keys. destruct (String.eqb_spec n sep) as [->|Hs]; [destruct GN; discriminate|].
      destruct GN as (K & D). rewrite (split_plain n D); cbn [forallb]; rewrite K; cbn [andb].
      unfold search_or_create_node. destruct (String.eqb_spec n sep) as [->|_]; [congruence|]. cbn [walk_create]. rewrite N', E1. reflexivity. }
    split.
    { split; [apply WF_set_val, W1|]. intros i; rewrite length_set_val, L1; intros Hi. unfold loc1, loc_ext.
      destruct (Nat.eqb_spec i (length h)); [lia|apply O; lia]. }
    split; [exact Lo|]. split; [rewrite length_set_val; exact L1|]. split.
    { split; [rewrite Lo by exact Hr; exact Lr|]; split; [rewrite length_set_val; lia|]. rewrite nparent_set_val. destruct (Pn1 r) as [-> _]; [lia|exact Hrp]. }
    split. { intros i Hi Hir. unfold set_val. rewrite hget_hset_other by lia. apply O1; lia. }
    assert (Wk : forall q m, walk h1 0 q = Some m -> walk h 0 q = Some m).
    { intros q m H; apply Wi1 in H; destruct H as [H|(q1 & H & _)]; [exact H|]. apply (walk_src _ _ _ _ _ W (wf_root _ _ W)) in H; congruence. }
    assert (Lc : length h < length h1) by lia.
    split.
    { intros q; rewrite lookup_set_val by exact Lc. rewrite <- (ext_lookup _ _ X1 0 q). unfold lookup.
      destruct (walk h1 0 q) as [m|] eqn:E; [|reflexivity]. apply Wk in E. apply (walk_alloc _ _ _ _ _ W (wf_pos _ _ W)) in E.
      destruct (Nat.eqb_spec m (length h)); [lia|reflexivity]. }
    split. { intros q m H; rewrite walk_set_val; apply (ext_walk _ _ X1), H. }
    assert (Wr : forall q m, walk h1 r q = Some m <-> walk h r q = Some m \/ (q = [n] /\ m = length h)).
    { intros q m; split.
      - intros H; apply Wi1 in H; destruct H as [H|(q1 & H & -> & ->)]; [left; exact H|right].
        apply (walk_to_root _ _ _ W LR) in H; destruct H as (-> & _); auto.
      - intros [H|(-> & ->)]; [apply (ext_walk _ _ X1), H|]. apply walk_cons. exists (length h); split; [apply Ed1; right; auto|reflexivity]. }
    split.
    { intros q m; split; intros (q1 & k & x & -> & Hw & Lx & E & Lm).
      - rewrite walk_set_val in Hw; apply edge_set_val in E. apply Ed1 in E; destruct E as [E|(-> & -> & ->)]; [|congruence].
        destruct (wf_edge_alloc _ _ W _ _ _ E) as [Ax Am]. apply Wr in Hw; destruct Hw as [Hw|(_ & ->)]; [|lia].
        exists q1, k, x; rewrite Lo in Lx, Lm by assumption; auto.
      - destruct (wf_edge_alloc _ _ W _ _ _ E) as [Ax Am].
        exists q1, k, x; split; [reflexivity|]; split; [rewrite walk_set_val; apply Wr; left; exact Hw|]; split; [rewrite Lo by exact Ax; exact Lx|].
        split; [apply edge_set_val, Ed1; left; exact E|rewrite Lo by exact Am; exact Lm]. }
    split.
    { intros q; rewrite lookup_set_val by exact Lc. destruct (path_eqb_spec q [n]) as [->|Hq].
      - assert (E : walk h1 r [n] = Some (length h)) by (apply Wr; right; auto). rewrite E, Nat.eqb_refl; reflexivity.
      - rewrite <- (ext_lookup _ _ X1 r q); unfold lookup. destruct (walk h1 r q) as [m|] eqn:E; [|reflexivity].
        apply Wr in E; destruct E as [E|(-> & _)]; [|congruence]. apply (walk_alloc _ _ _ _ _ W Hr) in E.
        destruct (Nat.eqb_spec m (length h)); [lia|reflexivity]. }
    intros k; rewrite walk_set_val; cbn [walk]; rewrite Pc1, (dget_dset String.eqb String.eqb_spec).
    destruct (String.eqb k n); reflexivity.
  Qed.

  Definition good (x : Res string) : Prop := match x with Ok n => good_name n | Err _ => True end.

  Lemma contains_walk : forall h r n, good_name n -> tree_contains kc h r (KStr n) = Ok (match walk h r [n] with Some _ => true | None => false end).
  Proof. intros h r n G; rewrite tree_contains_spec, (good_parse n G); destruct (walk h r [n]); reflexivity. Qed.

  Lemma fresh_ok : forall names h r n rest, Forall good names -> fresh_name kc h r names = Ok (n, rest) ->
    exists skipped, names = skipped ++ Ok n :: rest /\ good_name n /\ walk h r [n] = None /\
      forall x, In x skipped -> exists s c, x = Ok s /\ walk h r [s] = Some c.
  Proof.
    induction names as [|[s|e] names IH]; intros h r n rest G E; cbn [fresh_name] in E; try discriminate.
    inversion G as [|x l Gs Gr]; subst. rewrite (contains_walk h r s Gs) in E. destruct (walk h r [s]) as [c|] eqn:Ew.
    - destruct (IH h r n rest Gr E) as (sk & -> & A & B & C). exists (Ok s :: sk); split; [reflexivity|split; [exact A|split; [exact B|]]].
      intros x [<-|Hx]; [exists s, c; auto|apply C, Hx].
    - injection E as <- <-. exists []; split; [reflexivity|split; [exact Gs|split; [exact Ew|intros x []]]].
  Qed.

  (** The own handlers of a local tree: pairs of a top-level name and a handler. *)
  Definition owns (l : list (string * V)) (q : path) : option V := match q with [n] => dget String.eqb l n | _ => None end.

  Lemma add_local_ok : forall hs names loc h r h' res, Forall good names -> Shape loc h -> local_root loc h r ->
    add_local kc h r names hs = (h', res) ->
    exists loc' l, Shape loc' h' /\ agree loc loc' (length h) /\ length h <= length h' /\ local_root loc' h' r /\
      (forall i, i < length h -> i <> r -> hget h' i = hget h i) /\
      (forall q, lookup h' 0 q = lookup h 0 q) /\ (forall q m, walk h 0 q = Some m -> walk h' 0 q = Some m) /\
      (forall q m, gate loc' h' r q m <-> gate loc h r q m) /\
      (forall q, lookup h' r q = match owns l q with Some v => Some v | None => lookup h r q end) /\
      NoDup (dkeys l) /\ (forall n, In n (dkeys l) -> walk h r [n] = None /\ good_name n /\ In (Ok n) names) /\
      (res = Ok tt -> map snd l = hs).
  Proof.
    induction hs as [|v hs IH]; intros names loc h r h' res G S LR E; cbn [add_local] in E.
    - injection E as <- <-. exists loc, []; split; [exact S|]; split; [intros i _; reflexivity|]; split; [lia|]; split; [exact LR|].
      split; [auto|]; split; [reflexivity|]; split; [auto|]; split; [tauto|]; split; [intros q; destruct q as [|? [|]]; reflexivity|].
      split; [constructor|]; split; [intros n []|reflexivity].
    - assert (Stop : forall e, (h, Err e) = (h', res) -> exists loc' l, Shape loc' h' /\ agree loc loc' (length h) /\ length h <= length h' /\ local_root loc' h' r /\
      (forall i, i < length h -> i <> r -> hget h' i = hget h i) /\
      (forall q, lookup h' 0 q = lookup h 0 q) /\ (forall q m, walk h 0 q = Some m -> walk h' 0 q = Some m) /\
      (forall q m, gate loc' h' r q m <-> gate loc h r q m) /\
      (forall q, lookup h' r q = match owns l q with Some v => Some v | None => lookup h r q end) /\
      NoDup (dkeys l) /\ (forall n, In n (dkeys l) -> walk h r [n] = None /\ good_name n /\ In (Ok n) names) /\
      (res = Ok tt -> map snd l = v :: hs)).
      { clear E; intros e E; injection E as <- <-. exists loc, []; split; [exact S|]; split; [intros i _; reflexivity|]; split; [lia|]; split; [exact LR|].
        split; [auto|]; split; [reflexivity|]; split; [auto|]; split; [tauto|]; split; [intros q; destruct q as [|? [|]]; reflexivity|].
        split; [constructor|]; split; [intros n []|discriminate]. }
      destruct (fresh_name kc h r names) as [[n rest]|e] eqn:Ef; [|apply (Stop e), E].
      destruct (fresh_ok _ _ _ _ _ G Ef) as (sk & -> & Gn & Wn & Sk).
      destruct (add_one_ok loc h r n v S LR Gn Wn) as (loc1 & h1 & E1 & S1 & A1 & L1 & LR1 & O1 & K1 & M1 & Ga1 & R1 & T1).
      rewrite E1 in E.
      assert (Gr : Forall good rest) by (apply Forall_app in G; destruct G as (_ & G); inversion G; assumption).
      destruct (IH rest loc1 h1 r h' res Gr S1 LR1 E) as (loc2 & l & S2 & A2 & L2 & LR2 & O2 & K2 & M2 & Ga2 & R2 & N2 & T2 & Q2).
      exists loc2, ((n, v) :: l). split; [exact S2|]; split; [intros i Hi; rewrite A2 by lia; apply A1, Hi|]; split; [lia|]; split; [exact LR2|].
      split; [intros i Hi Hr; rewrite O2 by lia; apply O1; assumption|]. split; [intros q; rewrite K2; apply K1|]. split; [intros q m H; apply M2, M1, H|].
      split; [intros q m; rewrite Ga2; apply Ga1|].
      assert (Nn : ~ In n (dkeys l)). { intros H; apply T2 in H; destruct H as (H & _). rewrite T1, String.eqb_refl in H; discriminate. }
      split.
      { intros q; rewrite R2, R1. destruct q as [|k [|? ?]]; cbn [owns path_eqb]; rewrite ?andb_false_r; try reflexivity. cbn [dget]. rewrite andb_true_r.
        destruct (String.eqb_spec k n) as [->|]; [|destruct (dget String.eqb l k); reflexivity].
        destruct (dget String.eqb l n) eqn:D; [|reflexivity]. apply (dget_In String.eqb String.eqb_spec) in D. elim Nn. apply (in_map fst) in D; exact D. }
      split; [cbn [dkeys map fst]; constructor; [exact Nn|exact N2]|]. split.
      { intros m [<-|Hm]; [split; [exact Wn|split; [exact Gn|apply in_or_app; right; left; reflexivity]]|]. destruct (T2 m Hm) as (Tw & Tg & Ti). split; [|split; [exact Tg|apply in_or_app; right; right; exact Ti]].
        rewrite T1 in Tw. destruct (String.eqb m n); [discriminate|exact Tw]. }
      intros Hres; cbn [map snd]; f_equal; apply Q2, Hres.
  Qed.

  (** *** Histories with decorators *)
  Variable is_handler : V -> bool.

  (** An operation on the global tree or the creation of a decorator. *)
  Inductive dop : Type := DTop (o : top V) | DDec (a : harg V) (names : list (Res string)).
  Definition dstep h (d : dop) : heap V :=
    match d with DTop o => fst (tree_step kc vc h o) | DDec a names => fst (get_handlers kc is_handler h a names) end.
  Definition drun h (ops : list dop) : heap V := fold_left dstep ops h.
  Definition tops (ops : list dop) : list (top V) := flat_map (fun d => match d with DTop o => [o] | DDec _ _ => [] end) ops.
  Definition good_dop (d : dop) : Prop := match d with DTop _ => True | DDec _ names => Forall good names end.

  Lemma get_handlers_frame : forall loc h a names, Shape loc h -> Forall good names ->
    let h' := fst (get_handlers kc is_handler h a names) in
    exists loc', Shape loc' h' /\ agree loc loc' (length h) /\ local_frame loc h h' /\ length h <= length h' /\
      (forall q, lookup h' 0 q = lookup h 0 q) /\ (forall q m, walk h 0 q = Some m -> walk h' 0 q = Some m).
  Proof.
    intros loc h a names S G h'.
    assert (Same : h' = h -> exists loc', Shape loc' h' /\ agree loc loc' (length h) /\ local_frame loc h h' /\ length h <= length h' /\
      (forall q, lookup h' 0 q = lookup h 0 q) /\ (forall q m, walk h 0 q = Some m -> walk h' 0 q = Some m)).
    { intros ->; exists loc; split; [exact S|]; split; [intros i _; reflexivity|]; split; [intros i _ _; auto|]; split; [lia|auto]. }
    unfold h', get_handlers in *; destruct a as [|l|]; try (apply Same; reflexivity).
    destruct (classify is_handler l) as [[paths hs]|e]; [|apply Same; reflexivity]. clear Same.
    destruct (project_ok kc (map KStr paths) (length h) loc h (proj1 (Shape_Inv loc h) S)) as (loc1 & h1 & res & E & I1 & A & L & Lk & Mono & F & Rest).
    assert (S1 : Shape loc1 h1) by (split; apply I1).
    rewrite E. destruct res as [r|e]; [|exists loc1; cbn [fst]; auto 8].
    destruct (spec_project (V := V) kc (map KStr paths)); try contradiction; [|discriminate].
    destruct Rest as (r' & Er & (Br & LR) & _); injection Er as <-.
    destruct (add_local kc h1 r names hs) as [h2 res2] eqn:E2.
    destruct (add_local_ok hs names loc1 h1 r h2 res2 G S1 LR E2) as (loc2 & l2 & S2 & A2 & L2 & LR2 & O2 & K2 & M2 & _).
    exists loc2. assert (Eh : fst (match res2 with Ok _ => (h2, Ok r) | Err e => (h2, Err e) end) = h2) by (destruct res2; reflexivity).
    rewrite Eh. split; [exact S2|]; split; [intros i Hi; rewrite A2 by lia; apply A, Hi|]; split.
    - intros i Hi Li; rewrite O2 by lia; apply F; assumption.
    - split; [lia|]; split; [intros q; rewrite K2; apply Lk|intros q m H; apply M2, Mono, H].
  Qed.

  Definition dmap (m : amap V) (d : dop) : amap V := match d with DTop o => fst (map_step kc vc m o) | DDec _ _ => m end.

  Lemma dstep_local : forall loc h m d, Shape loc h -> good_dop d -> NoDup (dkeys m) -> (forall p, lookup h 0 p = dget path_eqb m p) ->
    exists loc', Shape loc' (dstep h d) /\ agree loc loc' (length h) /\ local_frame loc h (dstep h d) /\ length h <= length (dstep h d) /\
      NoDup (dkeys (dmap m d)) /\ (forall p, lookup (dstep h d) 0 p = dget path_eqb (dmap m d) p) /\
      (forall q n, walk h 0 q = Some n -> (match d with DTop (ODel _) => leads_to_value (dmap m d) q | _ => True end) -> walk (dstep h d) 0 q = Some n).
  Proof.
    intros loc h m [o|a names] S G Hnd Hl; cbn [dstep dmap].
    - destruct (step_local kc vc (length h) loc h m o (proj1 (Shape_Inv _ _) S) Hnd Hl) as (loc' & I' & A & F & L & N' & Hl' & Keep).
      exists loc'; split; [split; apply I'|]; split; [exact A|]; split; [exact F|]; split; [exact L|]; split; [exact N'|]; split; [exact Hl'|exact Keep].
    - destruct (get_handlers_frame loc h a names S G) as (loc' & S' & A & F & L & Lk & M).
      exists loc'; split; [exact S'|]; split; [exact A|]; split; [exact F|]; split; [exact L|]; split; [exact Hnd|]; split; [intros p; rewrite Lk; apply Hl|].
      intros q n H _; apply M, H.
  Qed.

  (** Every state of such a history: the global tree is the map of the operations on it alone. *)
  Lemma drun_map : forall ops loc h m, Shape loc h -> Forall good_dop ops -> NoDup (dkeys m) -> (forall p, lookup h 0 p = dget path_eqb m p) ->
    exists loc', Shape loc' (drun h ops) /\ NoDup (dkeys (final (map_step kc vc) m (tops ops))) /\
      (forall p, lookup (drun h ops) 0 p = dget path_eqb (final (map_step kc vc) m (tops ops)) p).
  Proof.
    induction ops as [|d ops IH]; intros loc h m S G Hnd Hl; [exists loc; auto|].
    inversion G as [|x l G1 G2]; subst.
    destruct (dstep_local loc h m d S G1 Hnd Hl) as (loc' & S' & _ & _ & _ & N' & Hl' & _).
    destruct (IH loc' (dstep h d) (dmap m d) S' G2 N' Hl') as (loc2 & H); exists loc2. destruct d; exact H.
  Qed.

  Lemma local_view_d : forall ops loc h m r ps,
    Shape loc h -> Forall good_dop ops -> NoDup (dkeys m) -> (forall p, lookup h 0 p = dget path_eqb m p) ->
    local_root loc h r -> in_ps ps loc h r ->
    let h' := drun h ops in
    (forall q, (forall p, In p ps -> ~ prefix p q) -> lookup h' r q = lookup h r q) /\
    (forall p q, In p ps -> prefix p q -> (forall g n, gate loc h r g n -> walk h 0 g = Some n \/ ~ prefix g p) ->
       kept kc vc m p (tops ops) -> lookup h' r q = lookup h' 0 q) /\ (exists loc', Shape loc' h') /\ r < length h'.
  Proof.
    induction ops as [|d ops IH]; intros loc h m r ps S G Hnd Hl LR (G1 & G2) h'.
    - unfold h', drun; cbn [fold_left]; destruct LR as (Lr & Hr & Hrp); split; [reflexivity|]; split; [|split; [exists loc; exact S|exact Hr]].
      intros p q Hp (s & ->) Alive _.
      destruct (G2 p Hp) as (g & n & Pg & Ga).
      destruct (Alive g n Ga) as [A|A]; [|contradiction].
      destruct Pg as (t & ->).
      rewrite <- app_assoc, !lookup_app, A, (gate_walk _ _ _ _ _ Ga); reflexivity.
    - inversion G as [|x l Gd Gr]; subst.
      destruct (dstep_local loc h m d S Gd Hnd Hl) as (loc' & S' & A & F & L & Hnd' & Hl' & Keep).
      assert (W : WF loc h) by apply S. assert (W' : WF loc' (dstep h d)) by apply S'.
      pose proof (local_lookup_frame loc loc' h _ r ps W W' A F L LR (conj G1 G2)) as Out.
      destruct LR as (Lr & Hr & Hrp).
      assert (forall q n, gate loc' (dstep h d) r q n <-> gate loc h r q n) as Gf.
      { apply gate_frame; auto; intros i Hi Li; apply F; assumption. }
      destruct (IH loc' (dstep h d) (dmap m d) r ps S' Gr Hnd' Hl') as (H1 & H2 & H3 & H4).
      + split; [rewrite A by exact Hr; exact Lr|]; split; [lia|]; destruct (F r Hr Lr) as (_ & -> & _); exact Hrp.
      + split.
        * intros q n Ga; apply (G1 q n), Gf; exact Ga.
        * intros p Hp; destruct (G2 p Hp) as (q & n & Pq & Ga); exists q, n; split; [exact Pq|apply Gf; exact Ga].
      + unfold h', drun; cbn [fold_left]; split; [intros q Hq; rewrite <- (Out q Hq); apply H1, Hq|]; split; [|split; assumption].
        intros p q Hp Pq Alive K.
        assert (K1 : match d with DTop (ODel _) => leads_to_value (dmap m d) p | _ => True end).
        { destruct d as [o|]; [|exact I]. destruct o; try exact I. cbn [tops flat_map app kept] in K; exact (proj1 K). }
        assert (K2 : kept kc vc (dmap m d) p (tops ops)).
        { destruct d as [o|]; [|exact K]. cbn [tops flat_map app kept] in K; exact (proj2 K). }
        apply (H2 p q Hp Pq); [|exact K2].
        intros g n Ga; apply Gf in Ga; destruct (Alive g n Ga) as [Al|Al]; [|right; exact Al].
        assert ({prefix g p} + {~ prefix g p}) as [P|P].
        { destruct (list_eq_dec string_dec (firstn (length g) p) g) as [E|E].
          - left; exists (skipn (length g) p); rewrite <- E at 1; symmetry; apply firstn_skipn.
          - right; intros (s & ->); apply E; rewrite firstn_app, firstn_all, Nat.sub_diag, firstn_O, app_nil_r; reflexivity. }
        * left; apply Keep; [exact Al|]; destruct d as [o|]; auto; destruct o; auto; apply (leads_prefix _ g p P); exact K1.
        * right; exact P.
  Qed.

  (** *** What get_handlers answers *)
  Definition strings (l : list (element V)) : list string := flat_map (fun x => match x with AStr s => [s] | AObj _ => [] end) l.
  Definition objects (l : list (element V)) : list V := flat_map (fun x => match x with AStr _ => [] | AObj v => [v] end) l.
  Lemma classify_ok : forall l, classify is_handler l = if forallb is_handler (objects l) then Ok (strings l, objects l) else Err EHandlerNotFound.
  Proof.
    induction l as [|[s|v] l IH]; cbn [classify objects strings flat_map app forallb]; [reflexivity| |].
    - rewrite IH; fold (objects l); destruct (forallb is_handler (objects l)); reflexivity.
    - fold (objects l) (strings l); destruct (is_handler v); [|reflexivity]; rewrite IH; destruct (forallb is_handler (objects l)); reflexivity.
  Qed.

  (** The names at the top of the local tree are the first names of the paths. *)
  Lemma put_walk_away : forall ks h x new r, r < length h -> x < length h -> (forall i k c, edge h i k c -> c < length h) ->
    (forall q y, walk h x q = Some y -> y <> r) -> hget (put_walk h x ks new) r = hget h r.
  Proof.
    induction ks as [|k ks IH]; intros h x new r Hr Hx Al Nr; [reflexivity|].
    assert (Xr : x <> r) by (apply (Nr [] x); reflexivity).
    assert (Set1 : forall cs, hget (set_childs h x cs) r = hget h r) by (intros cs; unfold set_childs; apply hget_hset_other; congruence).
    destruct ks as [|k2 ks]; [cbn [put_walk]; apply Set1|].
    change (put_walk h x (k :: k2 :: ks) new) with (match dget String.eqb (nchilds (hget h x)) k with Some c => put_walk h c (k2 :: ks) new
      | None => let (h', c) := create_child h x k in put_walk h' c (k2 :: ks) new end).
    destruct (dget String.eqb (nchilds (hget h x)) k) as [c|] eqn:E.
    - apply IH; [exact Hr|apply (Al x k c E)|exact Al|]. intros q y H; apply (Nr (k :: q) y). cbn [walk]; rewrite E; exact H.
    - pose proof (cc_length h x k) as L1. pose proof (cc_id h x k) as I1. pose proof (cc_edge h x k Hx E) as Ed1. pose proof (cc_other h x k) as O1.
      destruct (create_child h x k) as [h1 c]; cbn [fst snd] in *; subst c.
      rewrite (IH h1 (length h) new r); [apply O1; [congruence|lia]|lia|lia| |].
      + intros i k0 c Ec; apply Ed1 in Ec; destruct Ec as [Ec|(_ & _ & ->)]; [apply Al in Ec|]; lia.
      + intros [|k0 q] y H; [injection H as <-; lia|]. apply walk_cons in H; destruct H as (z & Ez & _). apply Ed1 in Ez.
        destruct Ez as [Ez|(Ex & _)]; [|lia]. unfold edge in Ez; rewrite hget_out in Ez by lia; discriminate.
  Qed.
  Lemma put_walk_top : forall k ks loc h r new, WF loc h -> local_root loc h r ->
    forall n, walk (put_walk h r (k :: ks) new) r [n] <> None -> n = k \/ walk h r [n] <> None.
  Proof.
    intros k ks loc h r new W LR n. pose proof LR as (Lr & Hr & Hrp).
    assert (Al : forall i k c, edge h i k c -> c < length h) by (intros i k0 c E; apply (wf_edge_alloc _ _ W _ _ _ E)).
    destruct (String.eqb_spec n k) as [->|Hk]; [auto|]. intros H; right; revert H.
    destruct ks as [|k2 ks].
    - cbn [put_walk walk]. unfold set_childs; rewrite hget_hset_same by exact Hr; cbn [nchilds]. rewrite (dget_dset String.eqb String.eqb_spec).
      destruct (String.eqb_spec n k); [congruence|auto].
    - change (put_walk h r (k :: k2 :: ks) new) with (match dget String.eqb (nchilds (hget h r)) k with Some c => put_walk h c (k2 :: ks) new
        | None => let (h', c) := create_child h r k in put_walk h' c (k2 :: ks) new end).
      destruct (dget String.eqb (nchilds (hget h r)) k) as [c|] eqn:E.
      + cbn [walk]. rewrite (put_walk_away (k2 :: ks) h c new r Hr (Al _ _ _ E) Al); [auto|].
        intros q y Hq ->. apply (walk_to_root _ _ _ W LR) in Hq; destruct Hq as (_ & ->). apply (no_edge_to_root _ _ _ W LR _ _ E).
      + pose proof (cc_length h r k) as L1. pose proof (cc_id h r k) as I1. pose proof (cc_edge h r k Hr E) as Ed1. pose proof (cc_p_childs h r k Hr) as Pc1.
        destruct (create_child h r k) as [h1 c]; cbn [fst snd] in *; subst c. cbn [walk].
        rewrite (put_walk_away (k2 :: ks) h1 (length h) new r); [|lia|lia| |].
        * rewrite Pc1, (dget_dset String.eqb String.eqb_spec). destruct (String.eqb_spec n k); [congruence|auto].
        * intros i k0 c Ec; apply Ed1 in Ec; destruct Ec as [Ec|(_ & _ & ->)]; [apply Al in Ec|]; lia.
        * intros [|k0 q] y H; [injection H as <-; lia|]. apply walk_cons in H; destruct H as (z & Ez & _). apply Ed1 in Ez.
          destruct Ez as [Ez|(Ex & _)]; [|lia]. unfold edge in Ez; rewrite hget_out in Ez by lia; discriminate.
  Qed.

  Lemma project_loop_top : forall ks loc h r done h' r', Shape loc h -> local_root loc h r -> gates_ok loc h r -> in_ps done loc h r ->
    project_loop kc h 0 r ks = (h', Ok r') ->
    forall n, walk h' r [n] <> None -> walk h r [n] <> None \/ exists k p, In k ks /\ parse kc k = Some (n :: p).
  Proof.
    induction ks as [|k ks IH]; intros loc h r done h' r' S LR Gok Ips E n Hn.
    - injection E as <- <-; auto.
    - assert (W : WF loc h) by apply S. pose proof LR as (Lr & Hr & Hrp).
      destruct (project_loop_ok kc [k] (length h) loc h r done (proj1 (Shape_Inv _ _) S) LR Gok Ips)
        as (loc1 & h1 & res & E1 & I1 & A1 & L1 & _ & _ & _ & Rest).
      cbn [project_loop] in E, E1.
      destruct (keys_cases kc k) as [(Ek & E2 & Hk)|[(-> & E0 & E2)|(p & Hne & Hk & E0 & E2 & Hd)]].
      + rewrite E2 in E. destruct k as [s|]; [destruct (String.eqb s sep)|]; discriminate.
      + rewrite String.eqb_refl in E; discriminate.
      + rewrite E2 in E, E1.
        assert (Nd : match k with KStr s => String.eqb s sep | KOther => false end = false).
        { destruct k as [s|]; [|reflexivity]; destruct (String.eqb_spec s sep) as [->|]; [congruence|reflexivity]. }
        rewrite Nd, (search_or_create_path h 0 p Hd) in E, E1.
        destruct (walk_create_spec p loc h 0 W (wf_pos _ _ W) (wf_root _ _ W)) as (loca & ha & m & Ec & Wa & Aa & Xa & _ & Fa & _).
        rewrite Ec in E, E1.
        assert (P : put_node kc ha r k m = (put_walk ha r p m, Ok r)).
        { unfold put_node; destruct k as [s|]; [|discriminate].
          destruct (String.eqb_spec s sep) as [->|]; [congruence|]; rewrite E2; reflexivity. }
        rewrite P in E, E1. injection E1 as <- <-.
        destruct (spec_project (V := V) kc [k]); try contradiction; [|discriminate].
        destruct Rest as (_ & LR1 & Gok1 & ps & _ & Ips1 & _).
        assert (S1 : Shape loc1 (put_walk ha r p m)) by (split; apply I1).
        destruct (IH loc1 (put_walk ha r p m) r (done ++ ps) h' r' S1 LR1 Gok1 Ips1 E n Hn) as [H|(k' & p' & Hin & Hp)].
        * destruct p as [|k1 p]; [congruence|].
          assert (LRa : local_root loca ha r).
          { pose proof (ext_len _ _ Xa). split; [rewrite Aa by exact Hr; exact Lr|]; split; [lia|]; rewrite Fa by assumption; exact Hrp. }
          destruct (put_walk_top k1 p loca ha r m Wa LRa n H) as [->|H2].
          -- right; exists k, p; split; [left; reflexivity|exact E0].
          -- left. cbn [walk] in *. rewrite Fa in H2 by assumption. exact H2.
        * right; exists k', p'; split; [right; exact Hin|exact Hp].
  Qed.
  Lemma project_top : forall ks loc h h' r, Shape loc h -> project kc h 0 ks = (h', Ok r) ->
    forall n, walk h' r [n] <> None -> exists k p, In k ks /\ parse kc k = Some (n :: p).
  Proof.
    intros ks loc h h' r S E n Hn. destruct (new_root_Inv kc (length h) loc h (proj1 (Shape_Inv _ _) S)) as (Er & I1 & LR1 & _ & _ & _ & Ec).
    assert (R : snd (new_root h) = r).
    { unfold project in E. destruct (new_root h) as [h1 t]; cbn [snd].
      clear - E; revert h1 t E. induction ks as [|k ks IH]; intros h1 t E; cbn [project_loop] in E; [congruence|].
      destruct (match k with KStr s => String.eqb s sep | KOther => false end) eqn:Ek; [discriminate|].
      destruct (get_converted_keys kc k) as [keys|] eqn:G; [|discriminate]. destruct (search_or_create_node h1 0 keys) as [h2 m].
      unfold put_node in E; destruct k as [s|]; [|discriminate]. rewrite Ek, G in E. apply (IH _ _ E). }
    unfold project in E. destruct (new_root h) as [h1 t]; cbn [fst snd] in *; subst t r.
    set (loc1 := fun i => if Nat.eqb i (length h) then true else loc i) in *.
    assert (NoG : forall q m, ~ gate loc1 h1 (length h) q m).
    { intros q m (q1 & k & x & -> & Hx & _ & Ee & _).
      destruct q1 as [|k1 q1].
      - cbn [walk] in Hx; injection Hx as <-; unfold edge in Ee; rewrite Ec in Ee; discriminate.
      - cbn [walk] in Hx; rewrite Ec in Hx; discriminate. }
    destruct (project_loop_top ks loc1 h1 (length h) [] h' (length h) (conj (proj1 I1) (proj2 (proj2 I1))) LR1) with (n := n) as [H|H].
    - intros q m G; elim (NoG q m G).
    - split; [intros q m G; elim (NoG q m G)|intros p []].
    - exact E.
    - exact Hn.
    - elim H; cbn [walk]; rewrite Ec; reflexivity.
    - exact H.
  Qed.

  (** With enough names left every handler gets one. *)
  Definition unused h r (ns : list string) : list string := filter (fun n => match walk h r [n] with None => true | Some _ => false end) ns.
  Lemma fresh_total : forall ns h r tail, Forall good_name ns -> unused h r ns <> [] ->
    exists n rest, fresh_name kc h r (map Ok ns ++ tail) = Ok (n, map Ok rest ++ tail) /\ incl rest ns /\ walk h r [n] = None /\
      unused h r ns = n :: unused h r rest /\ (NoDup ns -> NoDup rest /\ ~ In n rest).
  Proof.
    induction ns as [|s ns IH]; intros h r tail G U; [elim U; reflexivity|].
    inversion G as [|x l Gs Gr]; subst. cbn [map app fresh_name]. rewrite (contains_walk h r s Gs). cbn [unused filter] in *.
    destruct (walk h r [s]) as [c|] eqn:E.
    - destruct (IH h r tail Gr U) as (n & rest & E1 & In1 & W1 & U1 & N1). exists n, rest; split; [exact E1|]; split; [intros y Hy; right; apply In1, Hy|].
      split; [exact W1|]; split; [exact U1|]. intros N; inversion N; subst; auto.
    - exists s, ns; split; [reflexivity|]; split; [intros y Hy; right; exact Hy|]; split; [exact E|]; split; [reflexivity|].
      intros N; inversion N; subst; auto.
  Qed.
  Lemma add_local_total : forall hs ns tail loc h r, Forall good_name ns -> NoDup ns -> Shape loc h -> local_root loc h r ->
    length hs <= length (unused h r ns) -> exists h', add_local kc h r (map Ok ns ++ tail) hs = (h', Ok tt).
  Proof.
    induction hs as [|v hs IH]; intros ns tail loc h r G N S LR L; [exists h; reflexivity|].
    cbn [add_local length] in *. destruct (fresh_total ns h r tail G) as (n & rest & E & In1 & W1 & U1 & N1); [intros U; rewrite U in L; cbn in L; lia|].
    rewrite E. destruct (N1 N) as [N2 N3].
    assert (Gr : Forall good_name rest) by (rewrite Forall_forall in *; intros y Hy; apply G, In1, Hy).
    assert (Gn : good_name n).
    { rewrite Forall_forall in G; apply G. assert (H : In n (unused h r ns)) by (rewrite U1; left; reflexivity). apply filter_In in H; apply H. }
    destruct (add_one_ok loc h r n v S LR Gn W1) as (loc1 & h1 & E1 & S1 & _ & _ & LR1 & _ & _ & _ & _ & _ & T1).
    rewrite E1. apply (IH rest tail loc1 h1 r Gr N2 S1 LR1). rewrite U1 in L; cbn [length] in L.
    assert (U2 : unused h1 r rest = unused h r rest).
    { unfold unused; apply filter_ext_in. intros y Hy. rewrite T1. destruct (String.eqb_spec y n) as [->|]; [contradiction|reflexivity]. }
    rewrite U2; lia.
  Qed.
  Lemma unused_length : forall h r ns (used : list string), NoDup ns -> (forall n, walk h r [n] <> None -> In n used) ->
    length ns <= length (unused h r ns) + length used.
  Proof.
    intros h r ns used N U. rewrite <- app_length. apply NoDup_incl_length; [exact N|].
    intros n Hn. apply in_or_app. destruct (walk h r [n]) as [c|] eqn:E.
    - right; apply U; congruence.
    - left; apply filter_In; split; [exact Hn|rewrite E; reflexivity].
  Qed.
  Lemma firsts : forall ks h r, (forall n, walk h r [n] <> None -> exists k p, In k ks /\ parse kc k = Some (n :: p)) ->
    exists used, length used <= length ks /\ forall n, walk h r [n] <> None -> In n used.
  Proof.
    intros ks h r H. exists (flat_map (fun k => match parse kc k with Some (n :: _) => [n] | _ => [] end) ks); split.
    - clear; induction ks as [|k ks IH]; cbn [flat_map length]; [lia|]. rewrite app_length. destruct (parse kc k) as [[|]|]; cbn [length]; lia.
    - intros n Hn; destruct (H n Hn) as (k & p & Ik & Ep). apply in_flat_map; exists k; split; [exact Ik|rewrite Ep; left; reflexivity].
  Qed.
End ArgsProofs.
