(** C74: the delivery of a record over handlers that change meanwhile.  [ops] is any history of the registry
    before the record came, [ls] any mixture of steps of the delivery and operations on the registry. *)
From Coq Require Import Sorted.
From Verif Require Import Base Tree_Model Tree_Spec Tree_Heap Tree_Ops Tree_Project Tree_Proofs Tree_Props Deliver_Heap
  Deliver_Model Deliver_Spec Deliver_Proofs.

Section Props.
  Context {V : Type}.
  Variable kc : string -> bool.
  Variable vc : V -> bool.
  Implicit Types (h : heap V) (ops : list (top V)) (ls : list (label V)).
  Notation after := (dafter kc vc).
  Notation calls := (dcalls kc vc).
  Notation reg := (registered kc vc).

  (** A handler is called under a name only while it is registered under that name: a handler removed before its
      turn is not called, a replaced one is called in its new version. *)
  Theorem C74_registered : forall ops ls p v, dnext (after ops ls) = Some (p, v) ->
    dget path_eqb (reg ops ls) p = Some v.
  Proof.
    intros ops ls p v E.
    destruct (good_step kc vc _ _ _ LStep (good_after kc vc ops ls)) as [_ H].
    apply H; cbn [dstep]; unfold dnext in E; destruct (gen_step _ _) as [g c]; exact E.
  Qed.

  (** The calls are those of the steps. *)
  Theorem C74_calls : forall ops ls l, calls ops (ls ++ [l]) = calls ops ls ++
    match l with
    | LStep => match dnext (after ops ls) with Some x => [x] | None => [] end
    | LOp _ => []
    end.
  Proof.
    intros ops ls l; unfold dcalls; destruct (drun_app kc vc ls [l] (dstart kc vc ops)) as [_ ->]; f_equal.
    rewrite drun_calls; cbn [drun snd]; rewrite app_nil_r; destruct l as [|o]; [|reflexivity].
    cbn [dstep]; unfold dnext, dafter; destruct (gen_step _ _) as [g c]; reflexivity.
  Qed.

  Lemma shape_nodup : forall g called, shape g called -> NoDup called /\ StronglySorted shorter called.
  Proof.
    intros g called H; destruct g; cbn [shape] in H; try exact H.
    - destruct H as (d & H); split; apply H.
    - destruct H as (d & H); split; apply H.
    - destruct H as (d & H); split; apply H.
    - destruct H as (d & gone & n0 & _ & _ & _ & H); split; apply H.
  Qed.

  (** Nothing is called twice under one name. *)
  Theorem C74_once : forall ops ls, NoDup (map fst (calls ops ls)).
  Proof. intros ops ls; apply (shape_nodup (snd (after ops ls))), (good_after kc vc ops ls). Qed.

  (** The order of the names' depths. *)
  Theorem C74_order : forall ops ls a b p q, map fst (calls ops ls) = a ++ b -> In p a -> In q b -> length p <= length q.
  Proof.
    intros ops ls a b p q E Ha Hb.
    destruct (shape_nodup (snd (after ops ls)) _ (gd_shape _ _ _ (good_after kc vc ops ls))) as [_ H].
    rewrite E in H; clear E; induction a as [|x a IH]; [destruct Ha|].
    cbn [app] in H; inversion H as [|? ? H1 H2]; subst; destruct Ha as [->|Ha]; [|apply IH; assumption].
    rewrite Forall_forall in H2; apply H2, in_app_iff; right; exact Hb.
  Qed.

  Lemma stays_mrun : forall ops ls1 ls2 p, stays kc vc ops ls1 ls2 p ->
    forall a b, ls2 = a ++ b -> dget path_eqb (mrun kc vc (reg ops ls1) a) p <> None.
  Proof.
    intros ops ls1 ls2 p H a b E; specialize (H a b E).
    rewrite registered_mrun, mrun_app, <- registered_mrun in H; exact H.
  Qed.

  Lemma after_app : forall ops a b, after ops (a ++ b) = fst (drun kc vc (after ops a) b).
  Proof. intros ops a b; apply drun_app. Qed.
  Lemma calls_app : forall ops a b, calls ops (a ++ b) = calls ops a ++ snd (drun kc vc (after ops a) b).
  Proof. intros ops a b; apply drun_app. Qed.

  Lemma pends_end : forall ops ls1 ls2 p, pends (fst (after ops ls1)) (snd (after ops ls1)) p ->
    stays kc vc ops ls1 ls2 p -> snd (after ops (ls1 ++ ls2)) = GDone ->
    In p (map fst (calls ops (ls1 ++ ls2))).
  Proof.
    intros ops ls1 ls2 p P H D; rewrite after_app in D; rewrite calls_app, map_app, in_app_iff; right.
    destruct (pends_run kc vc ls2 _ _ _ p (good_after kc vc ops ls1) P (stays_mrun _ _ _ _ H)) as [K|[K|K]]; [exact K| |].
    - rewrite D in K; destruct K as [(x & [] & _)|[]].
    - rewrite D in K; destruct K as [K|K]; discriminate K.
  Qed.

  (** Whatever is registered under [p] during the whole delivery, the delivery calls it. *)
  Theorem C74_all : forall ops ls p, snd (after ops ls) = GDone -> stays kc vc ops [] ls p ->
    In p (map fst (calls ops ls)).
  Proof.
    intros ops ls p D H; apply (pends_end ops [] ls p); [apply pends_start|exact H|exact D].
  Qed.

  (** The same handler all the time: it is called itself, exactly once under this name. *)
  Theorem C74_all_value : forall ops ls p v, snd (after ops ls) = GDone ->
    (forall a b, ls = a ++ b -> dget path_eqb (reg ops a) p = Some v) ->
    In (p, v) (calls ops ls) /\ forall w, In (p, w) (calls ops ls) -> w = v.
  Proof.
    intros ops ls p v D H.
    assert (forall w, In (p, w) (calls ops ls) -> w = v) as U.
    { intros w Hw.
      assert (forall ls, In (p, w) (calls ops ls) -> exists a b, ls = a ++ b /\ dnext (after ops a) = Some (p, w)) as K.
      { clear; intros ls; induction ls as [|l ls IH] using rev_ind; intros Hw; [destruct Hw|].
        rewrite C74_calls, in_app_iff in Hw; destruct Hw as [Hw|Hw].
        - destruct (IH Hw) as (a & b & -> & E); exists a, (b ++ [l]); rewrite app_assoc; auto.
        - destruct l as [|o]; [|destruct Hw]; exists ls, [LStep]; split; [reflexivity|].
          destruct (dnext (after ops ls)) as [x|]; [|destruct Hw]; destruct Hw as [->|[]]; reflexivity. }
      destruct (K ls Hw) as (a & b & E & En); apply C74_registered in En; rewrite (H a b E) in En; congruence. }
    split; [|exact U].
    assert (In p (map fst (calls ops ls))) as Hp.
    { apply C74_all; [exact D|]; intros a b E; cbn [app]; rewrite (H a b E); discriminate. }
    apply in_map_iff in Hp; destruct Hp as ((p' & w) & E & Hi); cbn [fst] in E; subst p'.
    rewrite (U w Hi) in Hi; exact Hi.
  Qed.

  (** A handler added below (or at) a name whose turn has not come yet gets the record as well. *)
  Theorem C74_added : forall ops ls1 ls2 p s, snd (after ops (ls1 ++ ls2)) = GDone ->
    stays kc vc ops [] ls1 p -> ~ In p (map fst (calls ops ls1)) ->
    stays kc vc ops ls1 ls2 (p ++ s) ->
    In (p ++ s) (map fst (calls ops (ls1 ++ ls2))).
  Proof.
    intros ops ls1 ls2 p s D H1 Hn H2; apply pends_end; [|exact H2|exact D].
    destruct (pends_run kc vc ls1 _ _ _ p (good_after kc vc ops []) (pends_start kc vc ops p) (stays_mrun _ _ _ _ H1)) as [K|[K|K]].
    - contradiction.
    - change (fst (drun kc vc (after ops []) ls1)) with (after ops ls1) in K.
      destruct K as [(x & Hx & (t & Et) & Wx)|K].
      + left; exists x; split; [exact Hx|]; split; [exists (t ++ s); rewrite Et, app_assoc; reflexivity|exact Wx].
      + right; destruct (snd (after ops ls1)) as [| |c todo next|c cs rest todo next| | |]; auto.
        * destruct K as (Wc & k & t & ->); split; [exact Wc|]; exists k, (t ++ s); rewrite <- app_assoc; reflexivity.
        * destruct K as (k & n & t & Hi & -> & Wn); exists k, n, (t ++ s); split; [exact Hi|]; split; [|exact Wn].
          rewrite <- app_assoc; reflexivity.
    - change (fst (drun kc vc (after ops []) ls1)) with (after ops ls1) in K.
      exfalso; rewrite after_app in D.
      assert (forall ls t, bad (snd t) -> bad (snd (fst (drun kc vc t ls)))) as B.
      { clear; induction ls as [|l ls IH]; intros t D; [exact D|]; rewrite drun_state; apply IH.
        destruct t as [h g]; cbn [snd] in D; destruct l as [|o]; cbn [dstep fst snd]; [|exact D].
        destruct D as [->| ->]; cbn [gen_step snd fst]; unfold bad; auto. }
      apply (B ls2) in K; rewrite D in K; destruct K as [K|K]; discriminate K.
  Qed.

  (** A running handler adds handlers below its own name (and stays itself while it does): they get the record. *)
  Theorem C74_child_of_running : forall ops ls1 os ls2 p v k s,
    dnext (after ops ls1) = Some (p, v) ->
    let ls := ls1 ++ LStep :: map LOp os in
    stays kc vc ops ls1 (LStep :: map LOp os) p ->
    snd (after ops (ls ++ ls2)) = GDone ->
    stays kc vc ops ls ls2 (p ++ k :: s) ->
    In (p ++ k :: s) (map fst (calls ops (ls ++ ls2))).
  Proof.
    intros ops ls1 os ls2 p v k s E ls Hs D H2; apply pends_end; [|exact H2|exact D]; clear D H2.
    assert (exists c todo next, snd (after ops ls1) = GVal c todo next /\ fst c = p /\
            walk (fst (after ops ls1)) 0 p = Some (snd c)) as (c & todo & next & Eg & Ec & Wc).
    { pose proof (good_after kc vc ops ls1) as [(b & loc & I & Fi) _ _ _].
      unfold dnext in E; destruct (snd (after ops ls1)) as [[|c t] [|y n]|c todo next|c todo next|c cs rest todo next| | |];
        cbn [gen_step snd] in E; try discriminate E.
      - destruct (nval _); discriminate E.
      - destruct (nval _); discriminate E.
      - destruct (nval (hget (fst (after ops ls1)) (snd c))) as [v'|] eqn:Ev; [|discriminate E].
        injection E as <- <-; exists c, todo, next; split; [reflexivity|]; split; [reflexivity|].
        destruct (Fi c) as (_ & _ & H3); [left; reflexivity|]; destruct H3 as [H3|[_ H3]]; [exact H3|].
        specialize (H3 []); unfold lookup in H3; cbn [walk] in H3; congruence.
      - destruct (childs_eqb _ _); [destruct rest as [|[? ?] ?]|]; discriminate E. }
    assert (forall os' os2, os = os' ++ os2 ->
            snd (after ops (ls1 ++ LStep :: map LOp os')) = GIn c todo next /\
            walk (fst (after ops (ls1 ++ LStep :: map LOp os'))) 0 p = Some (snd c)) as K.
    { intros os'; induction os' as [|o os' IH] using rev_ind; intros os2 Eo.
      - cbn [map]; rewrite after_app, drun_state; cbn [drun fst]; destruct (after ops ls1) as [h g]; cbn [snd fst] in Eg, Wc |- *.
        subst g; cbn [dstep gen_step fst snd]; auto.
      - rewrite <- app_assoc in Eo; cbn [app] in Eo; destruct (IH _ Eo) as [K1 K2].
        rewrite map_app; cbn [map]; rewrite app_comm_cons, app_assoc, after_app, drun_state; cbn [drun fst dstep snd].
        split; [exact K1|].
        apply (walk_kept kc vc _ _ _ o p (snd c) (good_after kc vc ops (ls1 ++ LStep :: map LOp os'))); [exact K2|].
        apply (leads_of _ p []); rewrite app_nil_r.
        specialize (Hs (LStep :: map LOp (os' ++ [o])) (map LOp os2)).
        rewrite registered_mrun, map_app in Hs; cbn [map] in Hs; rewrite app_comm_cons, app_assoc, mrun_app, <- registered_mrun in Hs.
        apply Hs; rewrite Eo, map_app; cbn [map app]; rewrite <- app_assoc; reflexivity. }
    destruct (K os []) as [K1 K2]; [rewrite app_nil_r; reflexivity|].
    fold ls in K1, K2; right; rewrite K1, Ec; split; [exact K2|]; exists k, s; reflexivity.
  Qed.

  (** *** Undisturbed reading *)
  Definition calm (s : dstate V) : Prop :=
    ~ bad (snd s) /\ match snd s with GLoop c cs _ _ _ => nchilds (hget (fst s) (snd c)) = cs | _ => True end.

  Lemma calm_run : forall ls s, calm s -> undisturbed kc vc s ls -> calm (fst (drun kc vc s ls)).
  Proof.
    induction ls as [|l ls IH]; intros s C U; [exact C|].
    rewrite drun_state; destruct U as [U1 U2]; apply IH; [|exact U2]; clear IH U2.
    destruct s as [h g], C as [C1 C2]; cbn [fst snd] in *; destruct l as [|o]; cbn [dstep fst snd].
    - assert (forall g c, (g, c) = gen_step h g -> True) as _ by auto.
      destruct g as [[|c t] [|y n]|c todo next|c todo next|c cs rest todo next| | |]; cbn [gen_step fst snd].
      1,2: split; cbn [fst snd]; [intros [E|E]; discriminate E|exact Logic.I].
      1,2: destruct (nval _); (split; cbn [fst snd]; [intros [E|E]; discriminate E|exact Logic.I]).
      + split; cbn [fst snd]; [intros [E|E]; discriminate E|exact Logic.I].
      + split; cbn [fst snd]; [intros [E|E]; discriminate E|reflexivity].
      + rewrite C2, childs_eqb_refl; destruct rest as [|[k n0] rest]; (split; cbn [fst snd]; [intros [E|E]; discriminate E|auto]).
      + split; cbn [fst snd]; auto.
      + destruct C1; left; reflexivity.
      + destruct C1; right; reflexivity.
    - split; cbn [fst snd]; [exact C1|]; destruct g; auto; destruct U1.
  Qed.

  (** If nobody touches the registry while the children of a node are being read, the delivery does not break. *)
  Theorem C74_undisturbed : forall ops ls, undisturbed kc vc (dstart kc vc ops) ls ->
    snd (after ops ls) <> GRaise /\ snd (after ops ls) <> GOdd.
  Proof.
    intros ops ls U; destruct (calm_run ls (dstart kc vc ops)) as [H _]; [|exact U|].
    - split; [intros [E|E]; discriminate E|exact Logic.I].
    - unfold bad in H; split; intros E; apply H; unfold dafter in E; rewrite E; auto.
  Qed.

  (** *** The end of a delivery *)
  Definition called_in h (l : list item) : list (path * V) :=
    flat_map (fun x => match nval (hget h (snd x)) with Some v => [(fst x, v)] | None => [] end) l.

  Lemma run_loop : forall h rest c cs todo next, nchilds (hget h (snd c)) = cs ->
    drun kc vc (h, GLoop c cs rest todo next) (repeat LStep (S (length rest))) = ((h, GAt todo (next ++ below c rest)), []).
  Proof.
    intros h rest; induction rest as [|[k n] rest IH]; intros c cs todo next E.
    - cbn [length repeat drun dstep fst snd gen_step]; rewrite E, childs_eqb_refl; cbn [below map]; rewrite app_nil_r; reflexivity.
    - change (repeat LStep (S (length ((k, n) :: rest)))) with (LStep (V := V) :: repeat LStep (S (length rest))).
      cbn [drun dstep fst snd gen_step]; rewrite E, childs_eqb_refl.
      rewrite (IH c cs todo (next ++ [(fst c ++ [k], n)]) E); unfold below; cbn [map fst snd]; rewrite <- app_assoc; reflexivity.
  Qed.

  Lemma run_plus : forall a b s, drun kc vc s (repeat LStep (a + b)) =
    let (s1, c1) := drun kc vc s (repeat LStep a) in let (s2, c2) := drun kc vc s1 (repeat LStep b) in (s2, c1 ++ c2).
  Proof.
    intros a b s; rewrite repeat_app; destruct (drun_app kc vc (repeat LStep a) (repeat LStep b) s) as [E1 E2].
    destruct (drun kc vc s (repeat LStep a)) as [s1 c1]; cbn [fst snd] in *.
    destruct (drun kc vc s (repeat LStep a ++ repeat LStep b)) as [s2 c2]; destruct (drun kc vc s1 (repeat LStep b)) as [s3 c3].
    cbn [fst snd] in *; congruence.
  Qed.

  Lemma run_read : forall h c todo next, exists n,
    drun kc vc (h, GIn c todo next) (repeat LStep n) = ((h, GAt todo (next ++ below c (nchilds (hget h (snd c))))), []).
  Proof.
    intros h c todo next; exists (S (S (length (nchilds (hget h (snd c)))))).
    change (repeat LStep (S (S (length (nchilds (hget h (snd c)))))))
      with (LStep (V := V) :: repeat LStep (S (length (nchilds (hget h (snd c)))))).
    cbn [drun dstep fst snd gen_step]; rewrite run_loop; reflexivity.
  Qed.

  Lemma run_layer : forall h todo next, exists n,
    drun kc vc (h, GAt todo next) (repeat LStep n) = ((h, GAt [] (next ++ expand h todo)), called_in h todo).
  Proof.
    intros h todo; induction todo as [|c todo IH]; intros next.
    - exists 0; cbn [repeat drun expand flat_map called_in]; rewrite app_nil_r; reflexivity.
    - destruct (IH (next ++ below c (nchilds (hget h (snd c))))) as (n1 & E1).
      destruct (run_read h c todo next) as (n2 & E2).
      assert (exists n0, drun kc vc (h, GAt (c :: todo) next) (repeat LStep n0) =
              ((h, GIn c todo next), match nval (hget h (snd c)) with Some v => [(fst c, v)] | None => [] end)) as (n0 & E0).
      { destruct (nval (hget h (snd c))) as [v|] eqn:Ev.
        - exists 2; cbn [repeat drun dstep fst snd gen_step]; rewrite Ev; cbn [fst snd gen_step]; rewrite Ev; reflexivity.
        - exists 1; cbn [repeat drun dstep fst snd gen_step]; rewrite Ev; reflexivity. }
      exists (n0 + (n2 + n1)); rewrite run_plus, E0, run_plus, E2, E1; cbn [called_in flat_map app].
      rewrite <- app_assoc; reflexivity.
  Qed.

  Lemma run_bfs : forall fuel h layer l, bfsp fuel h layer = Some l -> exists n,
    drun kc vc (h, GAt layer []) (repeat LStep n) = ((h, GDone), called_in h l).
  Proof.
    induction fuel as [|f IH]; intros h layer l E; destruct layer as [|x r]; try discriminate E.
    - injection E as <-; exists 1; reflexivity.
    - injection E as <-; exists 1; reflexivity.
    - cbn [bfsp] in E; destruct (bfsp f h (expand h (x :: r))) as [l'|] eqn:El; [|discriminate E].
      injection E as <-; destruct (IH _ _ _ El) as (n2 & E2); destruct (run_layer h (x :: r) []) as (n1 & E1).
      rewrite app_comm_cons; unfold called_in; rewrite flat_map_app; fold (called_in h (x :: r)); fold (called_in h l').
      cbn [app] in E1; destruct (expand h (x :: r)) as [|y r'] eqn:Ex.
      + exists (n1 + n2); rewrite run_plus, E1; unfold item in *; rewrite E2; reflexivity.
      + exists (n1 + (1 + n2)); rewrite run_plus, E1, run_plus; cbn [repeat drun dstep fst snd gen_step].
        rewrite E2; reflexivity.
  Qed.

  Lemma bfsp_total : forall loc h, WF loc h -> forall fuel k layer,
    (forall x, In x layer -> snd x < length h /\ k <= rank loc h (snd x)) -> 2 * length h <= fuel + k ->
    exists l, bfsp fuel h layer = Some l.
  Proof.
    intros loc h W; induction fuel as [|f IH]; intros k layer H L; destruct layer as [|x r].
    - exists []; reflexivity.
    - destruct (H x) as [H1 H2]; [left; reflexivity|]; unfold rank in H2; destruct (loc (snd x)); lia.
    - exists []; reflexivity.
    - cbn [bfsp]; destruct (IH (S k) (expand h (x :: r))) as (l & E); [|lia|rewrite E; eexists; reflexivity].
      intros y Hy; unfold expand in Hy; apply in_flat_map in Hy; destruct Hy as (z & Hz & Hy).
      apply in_map_iff in Hy; destruct Hy as ((k' & c) & <- & Hc); cbn [snd fst].
      apply (In_dget String.eqb String.eqb_spec) in Hc; [|apply (wf_nodup _ _ W)].
      assert (edge h (snd z) k' c) as Ed by exact Hc.
      split; [apply (wf_edge_alloc _ _ W _ _ _ Ed)|].
      exact (Nat.le_lt_trans _ _ _ (proj2 (H z Hz)) (edge_rank _ _ _ _ _ W Ed)).
  Qed.

  Lemma run_from_at : forall loc h todo next, WF loc h -> (forall x, In x (todo ++ next) -> snd x < length h) ->
    exists n, snd (fst (drun kc vc (h, GAt todo next) (repeat LStep n))) = GDone.
  Proof.
    intros loc h todo next W H.
    assert (exists L : list item, (exists n1, drun kc vc (h, GAt todo next) (repeat LStep n1) = ((h, GAt [] L), called_in h todo)) /\
            forall x, In x L -> snd x < length h) as (L & (n1 & E1) & H2).
    { destruct (run_layer h todo next) as (n1 & E1); eexists; split; [exists n1; exact E1|].
      intros x Hx; apply in_app_iff in Hx; destruct Hx as [Hx|Hx]; [apply H, in_app_iff; right; exact Hx|].
      unfold expand in Hx; apply in_flat_map in Hx; destruct Hx as (z & Hz & Hx).
      apply in_map_iff in Hx; destruct Hx as ((k' & c) & <- & Hc); cbn [snd fst].
      apply (In_dget String.eqb String.eqb_spec) in Hc; [|apply (wf_nodup _ _ W)].
      apply (wf_edge_alloc _ _ W (snd z) k' c Hc). }
    destruct (bfsp_total loc h W (2 * length h) 0 L) as (l & El).
    { intros x Hx; split; [apply H2; exact Hx|lia]. }
    { lia. }
    destruct (run_bfs _ _ _ _ El) as (n2 & E2).
    destruct L as [|y r].
    - exists (n1 + n2); rewrite run_plus, E1, E2; reflexivity.
    - exists (n1 + (1 + n2)); rewrite run_plus, E1, run_plus; cbn [repeat drun dstep fst snd gen_step]; rewrite E2; reflexivity.
  Qed.

  (** When the changes stop, the delivery comes to an end. *)
  Theorem C74_ends : forall ops ls, exists n, over (snd (after ops (ls ++ repeat LStep n))).
  Proof.
    intros ops ls; pose proof (good_after kc vc ops ls) as [(b & loc & (W & _) & Fi) _ _ Sh].
    assert (exists n, over (snd (fst (drun kc vc (after ops ls) (repeat LStep n))))) as (n & H).
    2:{ exists n; rewrite after_app; exact H. }
    destruct (after ops ls) as [h g]; cbn [fst snd] in *.
    assert (forall todo next, (forall x, In x (todo ++ next) -> fine loc h x) ->
            exists n, over (snd (fst (drun kc vc (h, GAt todo next) (repeat LStep n))))) as AtEnds.
    { intros todo next H; destruct (run_from_at loc h todo next W) as (n & E); [intros x Hx; apply (H x Hx)|].
      exists n; left; exact E. }
    assert (forall c todo next, (forall x, In x (c :: todo ++ next) -> fine loc h x) ->
            exists n, over (snd (fst (drun kc vc (h, GIn c todo next) (repeat LStep n))))) as InEnds.
    { intros c todo next H; destruct (run_read h c todo next) as (n1 & E1).
      destruct (AtEnds todo (next ++ below c (nchilds (hget h (snd c))))) as (n2 & E2).
      { intros x Hx; rewrite app_assoc in Hx; apply in_app_iff in Hx; destruct Hx as [Hx|Hx]; [apply H; right; exact Hx|].
        unfold below in Hx; apply in_map_iff in Hx; destruct Hx as ((k & n) & <- & Hk); cbn [fst snd].
        apply fine_child; [exact W|apply H; left; reflexivity|exact Hk]. }
      exists (n1 + n2); rewrite run_plus, E1; destruct (drun kc vc _ (repeat LStep n2)) as [s2 c2]; exact E2. }
    destruct g as [todo next|c todo next|c todo next|c cs rest todo next| | |].
    - apply AtEnds; exact Fi.
    - destruct (InEnds c todo next Fi) as (n & E).
      exists (S n); cbn [repeat]; rewrite drun_state; cbn [dstep fst snd gen_step]; exact E.
    - apply InEnds; exact Fi.
    - destruct (childs_eqb (nchilds (hget h (snd c))) cs) eqn:Eq.
      + pose proof Eq as Eq'; apply childs_eqb_true in Eq'.
        destruct Sh as (d & gone & next0 & Ecs & _).
        destruct (AtEnds todo (next ++ below c rest)) as (n2 & E2).
        { intros x Hx; rewrite app_assoc in Hx; apply in_app_iff in Hx; destruct Hx as [Hx|Hx]; [apply Fi; right; exact Hx|].
          unfold below in Hx; apply in_map_iff in Hx; destruct Hx as ((k & n) & <- & Hk); cbn [fst snd].
          apply fine_child; [exact W|apply Fi; left; reflexivity|rewrite Eq', Ecs, in_app_iff; right; exact Hk]. }
        exists (S (length rest) + n2); rewrite run_plus, (run_loop h rest c cs todo next Eq').
        destruct (drun kc vc _ (repeat LStep n2)) as [s2 c2]; exact E2.
      + exists 1; cbn [repeat drun dstep fst snd gen_step]; rewrite Eq; cbn [fst snd]; unfold over; destruct (Nat.eqb _ _); auto.
    - exists 0; left; reflexivity.
    - exists 0; right; left; reflexivity.
    - exists 0; right; right; reflexivity.
  Qed.

  Lemma undisturbed_app : forall a b s, undisturbed kc vc s (a ++ b) <->
    undisturbed kc vc s a /\ undisturbed kc vc (fst (drun kc vc s a)) b.
  Proof.
    induction a as [|l a IH]; intros b s.
    - cbn [app undisturbed drun fst]; tauto.
    - rewrite drun_state; cbn [app undisturbed]; rewrite IH; tauto.
  Qed.
  Lemma undisturbed_steps : forall n s, undisturbed kc vc s (repeat LStep n).
  Proof. induction n as [|n IH]; intros s; cbn [repeat undisturbed]; [exact Logic.I|split; [exact Logic.I|apply IH]]. Qed.

  (** An undisturbed delivery reaches its regular end once the changes stop. *)
  Theorem C74_ends_well : forall ops ls, undisturbed kc vc (dstart kc vc ops) ls ->
    exists n, snd (after ops (ls ++ repeat LStep n)) = GDone.
  Proof.
    intros ops ls U; destruct (C74_ends ops ls) as (n & H); exists n.
    destruct (C74_undisturbed ops (ls ++ repeat LStep n)) as [H1 H2].
    { apply undisturbed_app; split; [exact U|apply undisturbed_steps]. }
    destruct H as [H|[H|H]]; [exact H|contradiction|contradiction].
  Qed.

  Lemma done_stays : forall n h, drun kc vc (h, GDone) (repeat LStep n) = ((h, GDone), []).
  Proof.
    induction n as [|n IH]; intros h; [reflexivity|].
    cbn [repeat drun dstep gen_step fst snd]; rewrite IH; reflexivity.
  Qed.

  (** Without changes the delivery is the iteration of C02. *)
  Theorem C74_unchanged : forall ops n, snd (after ops (repeat LStep n)) = GDone ->
    tree_iter (final (tree_step kc vc) tree_empty ops) 0 = Ok (map snd (calls ops (repeat LStep n))).
  Proof.
    intros ops n D.
    destruct (history_refines kc vc ops) as [_ (b & loc & (W & _) & _)].
    set (h := final (tree_step kc vc) tree_empty ops) in *.
    destruct (bfsp_total loc h W (fuel_of h) 0 [([], 0)]) as (l & El).
    { intros x [<-|[]]; split; [exact (wf_pos _ _ W)|lia]. }
    { unfold fuel_of; lia. }
    assert (tree_iter h 0 = Ok (map snd (called_in h l))) as ->.
    { unfold tree_iter, bfs_values; pose proof (bfs_bfsp (fuel_of h) h [([], 0)]) as E; cbn [map snd] in E; rewrite E, El.
      f_equal; clear; unfold called_in; induction l as [|x l IH]; [reflexivity|].
      cbn [map flat_map somes]; rewrite map_app, <- IH; destruct (nval (hget h (snd x))); reflexivity. }
    destruct (run_bfs _ _ _ _ El) as (n0 & E0).
    f_equal; f_equal; unfold dcalls, dafter, dstart, gen_start in *; fold h in D |- *.
    destruct (Nat.le_ge_cases n0 n) as [L|L].
    - replace n with (n0 + (n - n0)) by lia; rewrite run_plus, E0, done_stays; cbn [snd]; rewrite app_nil_r; reflexivity.
    - replace n0 with (n + (n0 - n)) in E0 by lia; rewrite run_plus in E0.
      destruct (drun kc vc (h, GAt [([], 0)] []) (repeat LStep n)) as [[h1 g1] c1]; cbn [fst snd] in *; subst g1.
      rewrite done_stays in E0; cbn [snd]; injection E0 as _ <-; rewrite app_nil_r; reflexivity.
  Qed.

  (** *** One record forever *)
  Lemma call_found : forall n s p, In p (map fst (snd (drun kc vc s (repeat LStep n)))) ->
    exists j v, j < n /\ dnext (fst (drun kc vc s (repeat LStep j))) = Some (p, v).
  Proof.
    induction n as [|n IH]; intros s p H; [destruct H|].
    cbn [repeat] in H; rewrite drun_calls, map_app, in_app_iff in H; destruct H as [H|H].
    - exists 0; cbn [repeat drun fst]; unfold dnext; cbn [dstep] in H.
      destruct (gen_step (fst s) (snd s)) as [g' [x|]]; cbn [snd map] in *; [|destruct H].
      destruct H as [<-|[]]; exists (snd x); split; [lia|destruct x; reflexivity].
    - destruct (IH _ _ H) as (j & v & L & E); exists (S j), v; split; [lia|].
      cbn [repeat]; rewrite drun_state; exact E.
  Qed.

  (** One handler that, whenever it is called, registers itself once more below its own name, keeps the delivery
      of a single record going without end: for every number there is a run with so many calls that is not over. *)
  Definition self_name (n : nat) (x : string) : path := repeat x (S n).
  Definition grow (x : string) (v : V) (n : nat) : top V := OSet (KStr (join_dots (self_name n x))) (Some v).


  Lemma grow_parse : forall x, kc x = true -> no_dot x = true -> x <> EmptyString ->
    forall n, parse kc (KStr (join_dots (self_name n x))) = Some (self_name n x).
  Proof.
    intros x Kx Dx Nx n; apply C01_keys; right.
    assert (forall f : string -> bool, f x = true -> forallb f (self_name n x) = true) as All.
    { intros f Fx; apply forallb_forall; intros y Hy; apply repeat_spec in Hy; subst y; exact Fx. }
    split; [|split; [discriminate|split; [reflexivity|split; [apply All; exact Dx|apply All; exact Kx]]]].
    destruct x as [|a x]; [congruence|]; cbn [no_dot] in Dx; apply andb_prop in Dx; destruct Dx as [Dx _].
    assert (exists t, join_dots (self_name n (String a x)) = String a t) as (t & ->).
    { unfold self_name; destruct n; cbn [repeat join_dots]; eexists; reflexivity. }
    intros E; injection E as E _; subst a; discriminate Dx.
  Qed.

  Lemma grow_map : forall x v, kc x = true -> no_dot x = true -> x <> EmptyString -> vc v = true ->
    forall n, let m := final (map_step kc vc) map_empty (map (grow x v) (seq 0 (S n))) in
    dget path_eqb m (self_name n x) = Some v /\
    forall p w, dget path_eqb m p = Some w -> exists i, i <= n /\ p = self_name i x.
  Proof.
    intros x v Kx Dx Nx Vv n.
    assert (forall n m, fst (map_step kc vc m (grow x v n)) = dset path_eqb m (self_name n x) v) as St.
    { clear n; intros n m; unfold grow; cbn [map_step]; rewrite Vv, (grow_parse x Kx Dx Nx n); reflexivity. }
    induction n as [|n IH]; cbn zeta in *.
    - cbn [seq map]; unfold final; cbn [fold_left]; rewrite St; split.
      + rewrite (dget_dset path_eqb path_eqb_spec); destruct (path_eqb_spec (self_name 0 x) (self_name 0 x)); congruence.
      + intros p w; rewrite (dget_dset path_eqb path_eqb_spec); destruct (path_eqb_spec p (self_name 0 x)) as [->|]; [|discriminate].
        intros _; exists 0; auto.
    - rewrite seq_S, map_app; unfold final; rewrite fold_left_app; cbn [map fold_left plus].
      fold (final (map_step kc vc) map_empty (map (grow x v) (seq 0 (S n)))); rewrite St; split.
      + rewrite (dget_dset path_eqb path_eqb_spec); destruct (path_eqb_spec (self_name (S n) x) (self_name (S n) x)); congruence.
      + intros p w; rewrite (dget_dset path_eqb path_eqb_spec); destruct (path_eqb_spec p (self_name (S n) x)) as [->|].
        * intros _; exists (S n); auto.
        * intros E; destruct IH as [_ IH]; destruct (IH p w E) as (i & Li & ->); exists i; split; [lia|reflexivity].
  Qed.

  Lemma changes_app : forall a b, changes (a ++ b) = changes (V := V) a ++ changes b.
  Proof. induction a as [|[|o] a IH]; intros b; cbn [app changes]; [reflexivity|apply IH|rewrite IH; reflexivity]. Qed.
  Lemma changes_steps : forall n, changes (V := V) (repeat LStep n) = [].
  Proof. induction n as [|n IH]; [reflexivity|exact IH]. Qed.

  Theorem C74_no_end_in_sight : forall x v, kc x = true -> no_dot x = true -> x <> EmptyString -> vc v = true ->
    forall n, exists ls, undisturbed kc vc (dstart kc vc [grow x v 0]) ls /\
      changes ls = map (grow x v) (seq 1 n) /\
      map fst (calls [grow x v 0] ls) = map (fun i => self_name i x) (seq 0 n) /\
      dnext (after [grow x v 0] ls) = Some (self_name n x, v).
  Proof.
    intros x v Kx Dx Nx Vv.
    set (ops := [grow x v 0]).
    assert (forall n ls, changes ls = map (grow x v) (seq 1 n) ->
            reg ops ls = final (map_step kc vc) map_empty (map (grow x v) (seq 0 (S n)))) as Rg.
    { intros n ls E; unfold registered; rewrite E; reflexivity. }
    (* the part common to the start and to the step: [q] = self_name n comes, nothing else is left *)
    assert (forall n ls, undisturbed kc vc (dstart kc vc ops) ls -> changes ls = map (grow x v) (seq 1 n) ->
            map fst (calls ops ls) = map (fun i => self_name i x) (seq 0 n) ->
            pends (fst (after ops ls)) (snd (after ops ls)) (self_name n x) ->
            exists ls', undisturbed kc vc (dstart kc vc ops) ls' /\ changes ls' = map (grow x v) (seq 1 n) /\
              map fst (calls ops ls') = map (fun i => self_name i x) (seq 0 n) /\
              dnext (after ops ls') = Some (self_name n x, v)) as Reach.
    { intros n ls U Ch Ca P.
      destruct (grow_map x v Kx Dx Nx Vv n) as [M1 M2].
      destruct (C74_ends_well ops ls U) as (k & D).
      assert (In (self_name n x) (map fst (snd (drun kc vc (after ops ls) (repeat LStep k))))) as Hin.
      { assert (forall a b, repeat LStep k = a ++ b -> dget path_eqb (mrun kc vc (reg ops ls) a) (self_name n x) <> None) as St.
        { intros a b E; assert (mrun kc vc (reg ops ls) a = reg ops ls) as ->.
          { assert (forall y, In y a -> y = LStep) as Ha.
            { intros y Hy; apply (repeat_spec k (LStep (V := V)) y); rewrite E, in_app_iff; left; exact Hy. }
            clear -Ha; generalize (reg ops ls); induction a as [|y a IH]; intros m; [reflexivity|].
            rewrite (Ha y (or_introl eq_refl)); cbn [mrun fold_left mstep]; apply IH; intros z Hz; apply Ha; right; exact Hz. }
          rewrite (Rg n ls Ch), M1; discriminate. }
        destruct (pends_run kc vc (repeat LStep k) _ _ _ _ (good_after kc vc ops ls) P St) as [K|[K|K]]; [exact K| |].
        - rewrite after_app in D; rewrite D in K; destruct K as [(y & [] & _)|[]].
        - rewrite after_app in D; rewrite D in K; destruct K as [K|K]; discriminate K. }
      destruct (call_found k _ _ Hin) as (j & w & _ & Ej).
      exists (ls ++ repeat LStep j); rewrite <- after_app in Ej.
      assert (changes (ls ++ repeat LStep j) = map (grow x v) (seq 1 n)) as Ch'.
      { rewrite changes_app, changes_steps, app_nil_r; exact Ch. }
      split; [apply undisturbed_app; split; [exact U|apply undisturbed_steps]|].
      split; [exact Ch'|].
      pose proof (C74_registered ops _ _ _ Ej) as Rj; rewrite (Rg n _ Ch') in Rj; cbn zeta in Rj.
      assert (w = v) as -> by congruence.
      split; [|exact Ej].
      rewrite calls_app, map_app, Ca.
      pose proof (C74_once ops ((ls ++ repeat LStep j) ++ [LStep])) as ND.
      rewrite C74_calls, Ej, map_app, calls_app, map_app, Ca in ND; cbn [map fst] in ND.
      assert (forall y, In y (map fst (snd (drun kc vc (after ops ls) (repeat LStep j)))) -> False) as Nil.
      { intros y Hy.
        assert (exists i, i <= n /\ y = self_name i x) as (i & Li & ->).
        { destruct (call_found j _ _ Hy) as (j' & w & _ & E'); rewrite <- after_app in E'.
          apply C74_registered in E'; rewrite (Rg n) in E' by (rewrite changes_app, changes_steps, app_nil_r; exact Ch).
          exact (M2 _ _ E'). }
        apply (NoDup_remove_2 _ [] _) in ND as ND2; rewrite app_nil_r in ND2; apply ND2.
        destruct (Nat.eq_dec i n) as [->|Hne]; [rewrite in_app_iff; right; exact Hy|exfalso].
        assert (In (self_name i x) (map (fun i => self_name i x) (seq 0 n))) as Hi.
        { apply in_map_iff; exists i; split; [reflexivity|apply in_seq; lia]. }
        apply NoDup_remove_1 in ND; rewrite app_nil_r in ND.
        clear -ND Hi Hy; revert ND Hi; generalize (map (fun i => self_name i x) (seq 0 n)); intros l ND Hi.
        induction l as [|z l IH]; [destruct Hi|]; cbn [app] in ND; inversion ND as [|? ? Nz ND']; subst.
        destruct Hi as [->|Hi]; [apply Nz, in_app_iff; right; exact Hy|apply IH; assumption]. }
      destruct (map fst (snd (drun kc vc (after ops ls) (repeat LStep j)))) as [|y l]; [apply app_nil_r|].
      destruct (Nil y); left; reflexivity. }
    induction n as [|n (ls & U & Ch & Ca & En)].
    - apply (Reach 0 []); [exact Logic.I|reflexivity|reflexivity|apply pends_start].
    - assert (exists c todo next, snd (after ops ls) = GVal c todo next /\ fst c = self_name n x /\
              walk (fst (after ops ls)) 0 (self_name n x) = Some (snd c)) as (c & todo & next & Eg & Ec & Wc).
      { pose proof (good_after kc vc ops ls) as [(b & loc & I & Fi) _ _ _].
        unfold dnext in En; destruct (snd (after ops ls)) as [[|c t] [|y n0]|c todo next|c todo next|c cs rest todo next| | |];
          cbn [gen_step snd] in En; try discriminate En.
        - destruct (nval _); discriminate En.
        - destruct (nval _); discriminate En.
        - destruct (nval (hget (fst (after ops ls)) (snd c))) as [v'|] eqn:Ev; [|discriminate En].
          injection En as E1 <-; exists c, todo, next; split; [reflexivity|]; split; [exact E1|]; rewrite <- E1.
          destruct (Fi c) as (_ & _ & H3); [left; reflexivity|]; destruct H3 as [H3|[_ H3]]; [exact H3|].
          specialize (H3 []); unfold lookup in H3; cbn [walk] in H3; congruence.
        - destruct (childs_eqb _ _); [destruct rest as [|[? ?] ?]|]; discriminate En. }
      set (ls2 := (ls ++ [LStep]) ++ [LOp (grow x v (S n))]).
      assert (snd (after ops (ls ++ [LStep])) = GIn c todo next /\ fst (after ops (ls ++ [LStep])) = fst (after ops ls)) as [G1 G2].
      { rewrite after_app, drun_state; cbn [drun fst dstep]; rewrite Eg; split; reflexivity. }
      assert (changes ls2 = map (grow x v) (seq 1 (S n))) as Ch2.
      { unfold ls2; rewrite !changes_app, seq_S, map_app, Ch; cbn [changes map plus]; rewrite app_nil_r; reflexivity. }
      apply (Reach (S n) ls2).
      + unfold ls2; apply undisturbed_app; split.
        * apply undisturbed_app; split; [exact U|]; cbn [undisturbed]; auto.
        * change (fst (drun kc vc (dstart kc vc ops) (ls ++ [LStep]))) with (after ops (ls ++ [LStep])).
          cbn [undisturbed]; rewrite G1; auto.
      + exact Ch2.
      + unfold ls2; rewrite !C74_calls, app_nil_r, En, map_app, Ca, seq_S, map_app; reflexivity.
      + right; unfold ls2; rewrite after_app, drun_state; cbn [drun fst dstep snd]; rewrite G1.
        split.
        * rewrite Ec; apply (walk_kept kc vc _ _ _ _ _ _ (good_after kc vc ops (ls ++ [LStep]))); [rewrite G2; exact Wc|].
          destruct (grow_map x v Kx Dx Nx Vv (S n)) as [M1 _]; cbn zeta in M1; rewrite <- (Rg (S n) ls2 Ch2) in M1.
          unfold ls2 in M1; rewrite registered_mrun, mrun_app, <- registered_mrun in M1; cbn [mrun fold_left mstep] in M1.
          apply (leads_of _ _ [x]); replace (self_name n x ++ [x]) with (self_name (S n) x); [rewrite M1; discriminate|].
          unfold self_name; change [x] with (repeat x 1); rewrite <- repeat_app; f_equal; lia.
        * exists x, []; rewrite Ec; unfold self_name; change (x :: []) with (repeat x 1); rewrite <- repeat_app; f_equal; lia.
  Qed.
End Props.

(** *** Concrete cases *)
Local Open Scope string_scope.
Local Open Scope list_scope.
Notation aft := (dafter any_key any_val).
Notation cls := (dcalls any_key any_val).
Definition put (k : string) (v : nat) : top nat := OSet (KStr k) (Some v).
Definition steps (n : nat) : list (label nat) := repeat LStep n.

Definition two : list (top nat) := [put "a" 1; put "b" 2].
(** Reading the root takes 6 steps; then "a" is called in the second of two steps. *)
Definition in_a : list (label nat) := steps 8.
Example C74_case_plain : snd (aft two (steps 20)) = GDone /\ cls two (steps 20) = [(["a"], 1); (["b"], 2)]
  /\ dnext (aft two (steps 7)) = Some (["a"], 1).
Proof. vm_compute; auto. Qed.
(** The handler "a" removes "b", replaces "b", adds "a.x", adds "c". *)
Example C74_case_removed : let ls := in_a ++ [LOp (ODel (KStr "b"))] ++ steps 20 in
  snd (aft two ls) = GDone /\ cls two ls = [(["a"], 1)].
Proof. vm_compute; auto. Qed.
Example C74_case_replaced : let ls := in_a ++ [LOp (put "b" 7)] ++ steps 20 in
  snd (aft two ls) = GDone /\ cls two ls = [(["a"], 1); (["b"], 7)].
Proof. vm_compute; auto. Qed.
Example C74_case_child : let ls := in_a ++ [LOp (put "a.x" 5); LOp (put "b.y" 6)] ++ steps 30 in
  snd (aft two ls) = GDone /\ cls two ls = [(["a"], 1); (["b"], 2); (["a"; "x"], 5); (["b"; "y"], 6)] /\
  undisturbed any_key any_val (dstart any_key any_val two) ls.
Proof. vm_compute; repeat split; auto. Qed.
Example C74_case_stays : stays any_key any_val two [] (in_a ++ [LOp (put "b" 7)]) ["b"].
Proof.
  intros a b E; assert (exists n, a = firstn n (in_a ++ [LOp (put "b" 7)]) /\ n <= 9) as (n & -> & L).
  { exists (length a); split; [rewrite E, firstn_app, firstn_all, Nat.sub_diag, firstn_O, app_nil_r; reflexivity|].
    apply (f_equal (@length _)) in E; rewrite !app_length in E.
    unfold in_a, steps in E; rewrite !repeat_length in E; cbn [length] in E; lia. }
  do 10 (destruct n as [|n]; [vm_compute; discriminate|]); lia.
Qed.
(** A handler added beside the nodes already read is not called. *)
Example C74_case_late : let ls := in_a ++ [LOp (put "c" 9)] ++ steps 20 in
  snd (aft two ls) = GDone /\ cls two ls = [(["a"], 1); (["b"], 2)].
Proof. vm_compute; auto. Qed.
Example C74_case_grow : cls [grow "a" 1 0] (steps 6 ++ [LOp (grow "a" 1 1)] ++ steps 5 ++ [LOp (grow "a" 1 2)] ++ steps 20) =
  [(["a"], 1); (["a"; "a"], 1); (["a"; "a"; "a"], 1)].
Proof. vm_compute; reflexivity. Qed.

(** "Registered when the record came and when its delivery was over" is not enough: a handler removed and put
    back under its name by another handler, in between, misses the record. *)
Theorem C74_put_back_refuted : exists (ops : list (top nat)) ls p v,
  undisturbed any_key any_val (dstart any_key any_val ops) ls /\ snd (aft ops ls) = GDone /\
  (forall a b, ls = a ++ LStep :: b -> dget path_eqb (registered any_key any_val ops a) p = Some v) /\
  ~ In p (map fst (cls ops ls)).
Proof.
  exists two, (in_a ++ [LOp (ODel (KStr "b")); LOp (put "b" 2)] ++ steps 20), ["b"], 2.
  split; [vm_compute; repeat split; auto|]; split; [vm_compute; reflexivity|]; split.
  - intros a b E.
    assert (exists n, a = firstn n (in_a ++ [LOp (ODel (KStr "b")); LOp (put "b" 2)] ++ steps 20) /\
            nth_error (in_a ++ [LOp (ODel (KStr "b")); LOp (put "b" 2)] ++ steps 20) n = Some LStep) as (n & -> & L).
    { exists (length a); rewrite E; split.
      - rewrite firstn_app, firstn_all, Nat.sub_diag, firstn_O, app_nil_r; reflexivity.
      - rewrite nth_error_app2, Nat.sub_diag by lia; reflexivity. }
    do 30 (destruct n as [|n]; [first [discriminate L|vm_compute; reflexivity]|]).
    destruct n; discriminate L.
  - vm_compute; intros [E|[]]; discriminate E.
Qed.

(** With threads: another thread registers a handler "c" while the children of the root are being read.  The
    delivery breaks with a RuntimeError and neither "a" nor "b", registered all the time, gets the record. *)
Theorem C74_threads_refuted : exists (ops : list (top nat)) ls,
  snd (aft ops ls) = GRaise /\ cls ops ls = [] /\
  (forall a b, ls = a ++ b -> dget path_eqb (registered any_key any_val ops a) ["a"] = Some 1) /\
  forall n, snd (aft ops (ls ++ steps n)) = GRaise /\ cls ops (ls ++ steps n) = [].
Proof.
  exists two, (steps 3 ++ [LOp (put "c" 3)] ++ steps 1).
  split; [vm_compute; reflexivity|]; split; [vm_compute; reflexivity|]; split.
  - intros a b E.
    assert (exists n, a = firstn n (steps 3 ++ [LOp (put "c" 3)] ++ steps 1) /\ n <= 5) as (n & -> & L).
    { exists (length a); split; [rewrite E, firstn_app, firstn_all, Nat.sub_diag, firstn_O, app_nil_r; reflexivity|].
      apply (f_equal (@length _)) in E; rewrite !app_length in E.
      unfold steps in E; rewrite !repeat_length in E; cbn [length] in E; lia. }
    do 6 (destruct n as [|n]; [vm_compute; reflexivity|]); lia.
  - intros n; unfold steps; rewrite after_app, calls_app.
    assert (forall n h, drun any_key any_val (h, GRaise) (repeat LStep n) = ((h, GRaise), [])) as R.
    { clear; induction n as [|n IH]; intros h; [reflexivity|]; cbn [repeat drun dstep gen_step fst snd]; rewrite IH; reflexivity. }
    assert (exists h, aft two (steps 3 ++ [LOp (put "c" 3)] ++ steps 1) = (h, GRaise)) as (h & Eh).
    { eexists; vm_compute; reflexivity. }
    unfold steps in Eh; rewrite Eh, R; split; [reflexivity|vm_compute; reflexivity].
Qed.

Print Assumptions C74_registered.
Print Assumptions C74_calls.
Print Assumptions C74_once.
Print Assumptions C74_order.
Print Assumptions C74_all.
Print Assumptions C74_all_value.
Print Assumptions C74_added.
Print Assumptions C74_child_of_running.
Print Assumptions C74_undisturbed.
Print Assumptions C74_ends.
Print Assumptions C74_ends_well.
Print Assumptions C74_unchanged.
Print Assumptions C74_no_end_in_sight.
Print Assumptions C74_put_back_refuted.
Print Assumptions C74_threads_refuted.
