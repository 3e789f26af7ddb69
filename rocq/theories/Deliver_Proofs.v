(** Invariants of a delivery over a changing tree. *)
From Coq Require Import Sorted.
From Verif Require Import Base Tree_Model Tree_Spec Tree_Heap Tree_Ops Tree_Project Tree_Proofs Deliver_Heap
  Deliver_Model Deliver_Spec.

Lemma childs_eqb_true : forall a b, childs_eqb a b = true -> a = b.
Proof.
  induction a as [|[k1 c1] a IH]; intros [|[k2 c2] b] H; cbn [childs_eqb] in H; try discriminate H; [reflexivity|].
  apply andb_prop in H; destruct H as [H H3]; apply andb_prop in H; destruct H as [H1 H2].
  apply String.eqb_eq in H1; apply Nat.eqb_eq in H2; subst; f_equal; apply IH; exact H3.
Qed.
Lemma childs_eqb_refl : forall a, childs_eqb a a = true.
Proof. induction a as [|[k c] a IH]; cbn [childs_eqb]; [reflexivity|]; rewrite String.eqb_refl, Nat.eqb_refl; exact IH. Qed.

(** *** The paths alone *)
Definition shorter (p q : path) : Prop := length p <= length q.

(** [ct]: the waiting nodes of depth [d] whose children are not read yet; [nc]: the paths of depth [d] not
    called yet. *)
Record core (d : nat) (ct : list item) (nc : list path) (next : list item) (called : list path) : Prop := {
  c_len : forall x, In x ct -> length (fst x) = d;
  c_nd : NoDup (map fst ct);
  c_nlen : forall x, In x next -> length (fst x) = S d;
  c_nnd : NoDup (map fst next);
  c_par : forall x, In x next -> exists q k, fst x = q ++ [k] /\ ~ In q (map fst ct);
  c_cnd : NoDup called;
  c_cle : forall p, In p called -> length p <= d /\ ~ In p nc;
  c_srt : StronglySorted shorter called
}.

Definition below (c : item) (l : list (string * nat)) : list item := map (fun kn => (fst c ++ [fst kn], snd kn)) l.

Definition shape (g : gen) (called : list path) : Prop :=
  match g with
  | GAt todo next => exists d, core d todo (map fst todo) next called
  | GVal c todo next => exists d, core d (c :: todo) (map fst (c :: todo)) next called
  | GIn c todo next => exists d, core d (c :: todo) (map fst todo) next called
  | GLoop c cs rest todo next => exists d gone next0, cs = gone ++ rest /\ NoDup (dkeys cs) /\
      next = next0 ++ below c gone /\ core d (c :: todo) (map fst todo) next0 called
  | _ => NoDup called /\ StronglySorted shorter called
  end.

Lemma sorted_snoc : forall l x, StronglySorted shorter l -> (forall y, In y l -> shorter y x) -> StronglySorted shorter (l ++ [x]).
Proof.
  induction l as [|a l IH]; intros x H Hx; cbn [app].
  - repeat constructor.
  - inversion H as [|? ? H1 H2]; subst; constructor.
    + apply IH; [exact H1|intros y Hy; apply Hx; right; exact Hy].
    + apply Forall_app; split; [exact H2|repeat constructor; apply Hx; left; reflexivity].
Qed.

Lemma snoc_inv : forall (a b : path) x y, a ++ [x] = b ++ [y] -> a = b /\ x = y.
Proof. intros a b x y H; apply app_inj_tail in H; exact H. Qed.

Lemma below_paths : forall c l, map fst (below c l) = map (fun k => fst c ++ [k]) (dkeys l).
Proof. intros c l; unfold below, dkeys; rewrite !map_map; reflexivity. Qed.

Lemma core_pass : forall d c todo next called, core d (c :: todo) (map fst (c :: todo)) next called ->
  core d (c :: todo) (map fst todo) next called.
Proof.
  intros d c todo next called [H1 H2 H3 H4 H5 H6 H7 H8]; split; auto.
  intros p Hp; destruct (H7 p Hp) as [A B]; split; [exact A|intros H; apply B; right; exact H].
Qed.

Lemma core_call : forall d c todo next called, core d (c :: todo) (map fst (c :: todo)) next called ->
  core d (c :: todo) (map fst todo) next (called ++ [fst c]).
Proof.
  intros d c todo next called [H1 H2 H3 H4 H5 H6 H7 H8].
  assert (length (fst c) = d) as Lc by (apply H1; left; reflexivity).
  split; auto.
  - apply NoDup_app_disj; [exact H6|repeat constructor; intros []|].
    intros x Hx [<-|[]]; destruct (H7 _ Hx) as [_ B]; apply B; left; reflexivity.
  - intros p Hp; apply in_app_iff in Hp; destruct Hp as [Hp|[<-|[]]].
    + destruct (H7 p Hp) as [A B]; split; [exact A|intros H; apply B; right; exact H].
    + split; [lia|]; cbn [map] in H2; inversion H2; assumption.
  - apply sorted_snoc; [exact H8|]; intros y Hy; unfold shorter; rewrite Lc; apply H7; exact Hy.
Qed.

Lemma core_read : forall d c todo next called cs, core d (c :: todo) (map fst todo) next called ->
  NoDup (dkeys cs) -> core d todo (map fst todo) (next ++ below c cs) called.
Proof.
  intros d c todo next called cs [H1 H2 H3 H4 H5 H6 H7 H8] Hcs.
  assert (length (fst c) = d) as Lc by (apply H1; left; reflexivity).
  split; auto.
  - intros x Hx; apply H1; right; exact Hx.
  - cbn [map] in H2; inversion H2; assumption.
  - intros x Hx; apply in_app_iff in Hx; destruct Hx as [Hx|Hx]; [apply H3; exact Hx|].
    unfold below in Hx; apply in_map_iff in Hx; destruct Hx as (kn & <- & _); cbn [fst].
    rewrite app_length; cbn [length]; lia.
  - rewrite map_app; apply NoDup_app_disj; [exact H4| |].
    + rewrite below_paths; apply NoDup_map_inj; [|exact Hcs]; intros x y _ _ E; apply snoc_inv in E; apply E.
    + intros x Hx Hy; apply in_map_iff in Hx; destruct Hx as (i & <- & Hi).
      rewrite below_paths in Hy; apply in_map_iff in Hy; destruct Hy as (k & E & _).
      destruct (H5 i Hi) as (q & k' & E' & Nq); rewrite E' in E; apply snoc_inv in E; destruct E as [<- _].
      apply Nq; left; reflexivity.
  - intros x Hx; apply in_app_iff in Hx; destruct Hx as [Hx|Hx].
    + destruct (H5 x Hx) as (q & k & E & Nq); exists q, k; split; [exact E|intros H; apply Nq; right; exact H].
    + unfold below in Hx; apply in_map_iff in Hx; destruct Hx as (kn & <- & _); cbn [fst].
      exists (fst c), (fst kn); split; [reflexivity|]; cbn [map] in H2; inversion H2; assumption.
Qed.

Lemma core_layer : forall d next called, core d [] [] next called -> core (S d) next (map fst next) [] called.
Proof.
  intros d next called [H1 H2 H3 H4 H5 H6 H7 H8]; split; auto; try (intros x []; fail); try (constructor; fail).
  - intros p Hp; destruct (H7 p Hp) as [A _]; split; [lia|].
    intros Hi; apply in_map_iff in Hi; destruct Hi as (x & <- & Hx); specialize (H3 x Hx); lia.
Qed.

Section Proofs.
  Context {V : Type}.
  Variable kc : string -> bool.
  Variable vc : V -> bool.
  Implicit Types (h : heap V).

  (** *** The waiting nodes *)
  Definition fine (loc : nat -> bool) h (x : item) : Prop :=
    snd x < length h /\ loc (snd x) = false /\
    (walk h 0 (fst x) = Some (snd x) \/ (~ reach h (snd x) /\ barren h (snd x))).

  Definition items (g : gen) : list item :=
    match g with
    | GAt todo next => todo ++ next
    | GVal c todo next | GIn c todo next | GLoop c _ _ todo next => c :: todo ++ next
    | _ => []
    end.

  Lemma fine_evo : forall loc loc' h h' x, agree loc loc' (length h) -> evo loc h h' -> fine loc h x -> fine loc' h' x.
  Proof.
    intros loc loc' h h' x A [L W G] (H1 & H2 & H3); split; [lia|]; split; [rewrite A by exact H1; exact H2|].
    destruct H3 as [H3|[H3 H4]]; [apply W; exact H3|right].
    destruct (G _ H1 H2 H3); auto.
  Qed.

  Lemma fine_child : forall loc h c k n, WF loc h -> fine loc h c -> In (k, n) (nchilds (hget h (snd c))) ->
    fine loc h (fst c ++ [k], n).
  Proof.
    intros loc h c k n W (H1 & H2 & H3) Hi.
    apply (In_dget String.eqb String.eqb_spec) in Hi; [|apply (wf_nodup _ _ W)].
    assert (edge h (snd c) k n) as E by exact Hi.
    split; [apply (wf_edge_alloc _ _ W _ _ _ E)|]; split; [apply (wf_edge_src _ _ W _ _ _ E H2)|].
    assert (walk h (snd c) [k] = Some n) as Hw by (apply walk_cons; exists n; split; [exact E|reflexivity]).
    cbn [fst snd]; destruct H3 as [H3|[H3 H4]].
    - left; apply walk_snoc; exists (snd c); auto.
    - right; split.
      + intros R; apply H3; exact (reach_up loc h W [k] _ _ H2 Hw R).
      + intros q; specialize (H4 ([k] ++ q)); rewrite lookup_app, Hw in H4; exact H4.
  Qed.

  (** *** The invariant of a delivery *)
  Record good (m : amap V) (s : dstate V) (called : list path) : Prop := {
    gd_ex : exists b loc, Inv b loc (fst s) /\ forall x, In x (items (snd s)) -> fine loc (fst s) x;
    gd_nd : NoDup (dkeys m);
    gd_map : forall p, lookup (fst s) 0 p = dget path_eqb m p;
    gd_shape : shape (snd s) called
  }.

  Definition mstep (m : amap V) (l : label V) : amap V :=
    match l with LStep => m | LOp o => fst (map_step kc vc m o) end.
  Definition new_call (c : option (path * V)) : list path := match c with Some x => [fst x] | None => [] end.

  Lemma good_step : forall m s called l, good m s called ->
    good (mstep m l) (fst (dstep kc vc s l)) (called ++ new_call (snd (dstep kc vc s l))) /\
    (forall p v, snd (dstep kc vc s l) = Some (p, v) -> dget path_eqb m p = Some v).
  Proof.
    intros m [h g] called l [(b & loc & I & Fi) Nd Mp Sh]; cbn [fst snd] in *.
    destruct l as [|o]; cbn [dstep mstep fst snd].
    - (* the delivery *)
      destruct g as [todo next|c todo next|c todo next|c cs rest todo next| | |]; cbn [gen_step fst snd new_call].
      + destruct todo as [|c todo]; [destruct next as [|y next]|].
        * cbn [fst snd new_call]; rewrite app_nil_r; split; [|discriminate].
          split; auto; cbn [fst snd].
          -- exists b, loc; split; [exact I|intros x []].
          -- destruct Sh as (d & H); split; apply H.
        * cbn [fst snd new_call]; rewrite app_nil_r; split; [|discriminate].
          split; auto; cbn [fst snd].
          -- exists b, loc; split; [exact I|]; intros x Hx; cbn [items] in Hx; rewrite app_nil_r in Hx.
             apply Fi; exact Hx.
          -- destruct Sh as (d & H); exists (S d); apply core_layer; exact H.
        * destruct (nval (hget h (snd c))) as [v|] eqn:Ev; cbn [fst snd new_call]; rewrite app_nil_r; (split; [|discriminate]).
          -- split; cbn [fst snd]; [exists b, loc; split; [exact I|exact Fi]|exact Nd|exact Mp|exact Sh].
          -- split; cbn [fst snd]; [exists b, loc; split; [exact I|exact Fi]|exact Nd|exact Mp|].
             destruct Sh as (d & H); exists d; apply core_pass; exact H.
      + destruct Sh as (d & H).
        destruct (nval (hget h (snd c))) as [v|] eqn:Ev; cbn [fst snd new_call].
        * split.
          -- split; cbn [fst snd]; [exists b, loc; split; [exact I|exact Fi]|exact Nd|exact Mp|].
             exists d; apply core_call; exact H.
          -- intros p v' E; injection E as <- <-.
             destruct (Fi c) as (H1 & H2 & H3); [left; reflexivity|].
             rewrite <- Mp; unfold lookup; destruct H3 as [H3|[_ H3]]; [rewrite H3; exact Ev|].
             specialize (H3 []); unfold lookup in H3; cbn [walk] in H3; congruence.
        * rewrite app_nil_r; split; [|discriminate].
          split; cbn [fst snd]; [exists b, loc; split; [exact I|exact Fi]|exact Nd|exact Mp|].
          exists d; apply core_pass; exact H.
      + rewrite app_nil_r; split; [|discriminate].
        split; cbn [fst snd]; [exists b, loc; split; [exact I|exact Fi]|exact Nd|exact Mp|].
        destruct Sh as (d & H); exists d, [], next; split; [reflexivity|].
        split; [apply (wf_nodup _ _ (proj1 I))|]; split; [rewrite app_nil_r; reflexivity|exact H].
      + destruct Sh as (d & gone & next0 & Ecs & Ncs & En & H).
        destruct (childs_eqb (nchilds (hget h (snd c))) cs) eqn:Eq.
        * apply childs_eqb_true in Eq.
          destruct rest as [|[k n] rest]; cbn [fst snd new_call]; rewrite app_nil_r; (split; [|discriminate]).
          -- split; auto; cbn [fst snd].
             ++ exists b, loc; split; [exact I|]; intros x Hx; apply Fi; right; exact Hx.
             ++ rewrite app_nil_r in Ecs; subst gone; exists d; subst next; apply core_read; assumption.
          -- split; auto; cbn [fst snd].
             ++ exists b, loc; split; [exact I|]; intros x Hx; cbn [items In] in Hx, Fi; rewrite app_assoc in Hx.
                destruct Hx as [Hx|Hx]; [apply Fi; left; exact Hx|].
                apply in_app_iff in Hx; destruct Hx as [Hx|[<-|[]]]; [apply Fi; right; exact Hx|].
                apply fine_child; [apply I|apply Fi; left; reflexivity|].
                rewrite Eq, Ecs, in_app_iff; right; left; reflexivity.
             ++ exists d, (gone ++ [(k, n)]), next0; split; [rewrite <- app_assoc; exact Ecs|].
                split; [exact Ncs|]; split; [|exact H].
                unfold below; rewrite map_app; cbn [map fst snd]; rewrite En, <- app_assoc; reflexivity.
        * cbn [fst snd new_call]; rewrite app_nil_r; split; [|discriminate].
          split; auto; cbn [fst snd].
          -- exists b, loc; split; [exact I|]; destruct (Nat.eqb _ _); intros x [].
          -- assert (NoDup called /\ StronglySorted shorter called) as Hd by (split; apply H).
             destruct (Nat.eqb _ _); exact Hd.
      + rewrite app_nil_r; split; [|discriminate]; split; auto; exists b, loc; auto.
      + rewrite app_nil_r; split; [|discriminate]; split; auto; exists b, loc; auto.
      + rewrite app_nil_r; split; [|discriminate]; split; auto; exists b, loc; auto.
    - (* the tree *)
      cbn [new_call]; rewrite app_nil_r; split; [|discriminate].
      destruct (step_local kc vc b loc h m o I Nd Mp) as (loc' & I' & A & _ & _ & Nd' & Mp' & _).
      split; auto; cbn [fst snd].
      exists b, loc'; split; [exact I'|]; intros x Hx.
      apply (fine_evo loc loc' h); [exact A|apply (step_evo kc vc b); exact I|apply Fi; exact Hx].
  Qed.

  (** *** A path still to come *)
  (** The delivery is going to reach [p]: it waits above it, at a node that is still in its place. *)
  Definition pends h (g : gen) (p : path) : Prop :=
    (exists x, In x (match g with GAt t n => t ++ n | GVal c t n => c :: t ++ n | GIn _ t n | GLoop _ _ _ t n => t ++ n | _ => [] end)
               /\ prefix (fst x) p /\ walk h 0 (fst x) = Some (snd x)) \/
    match g with
    | GIn c _ _ => walk h 0 (fst c) = Some (snd c) /\ exists k s, p = fst c ++ k :: s
    | GLoop c _ rest _ _ => exists k n s, In (k, n) rest /\ p = fst c ++ k :: s /\ walk h 0 (fst c ++ [k]) = Some n
    | _ => False
    end.

  Definition bad (g : gen) : Prop := g = GRaise \/ g = GOdd.

  Lemma prefix_cases : forall a p : path, prefix a p -> p = a \/ exists k s, p = a ++ k :: s.
  Proof. intros a p ([|k s] & ->); [left; apply app_nil_r|right; exists k, s; reflexivity]. Qed.

  (** A step of the delivery: called, still to come, or the delivery broke. *)
  Lemma pends_step : forall m s called p, good m s called -> dget path_eqb m p <> None ->
    pends (fst s) (snd s) p ->
    let s' := fst (dstep kc vc s LStep) in
    In p (new_call (snd (dstep kc vc s LStep))) \/ pends (fst s') (snd s') p \/ bad (snd s').
  Proof.
    intros m [h g] called p [(b & loc & I & Fi) Nd Mp Sh] Hp P; cbn [fst snd dstep] in *.
    rewrite <- Mp in Hp.
    destruct g as [todo next|c todo next|c todo next|c cs rest todo next| | |]; cbn [gen_step fst snd new_call].
    - destruct P as [(x & Hx & Px & Wx)|[]].
      destruct todo as [|c todo]; [destruct next as [|y next]|].
      + destruct Hx.
      + cbn [fst snd]; right; left; left; exists x; rewrite app_nil_r; auto.
      + destruct (nval (hget h (snd c))) as [v|] eqn:Ev; cbn [fst snd new_call].
        * right; left; left; exists x; auto.
        * right; left; destruct Hx as [->|Hx]; [|left; exists x; auto].
          destruct (prefix_cases _ _ Px) as [->|Hs]; [|right; auto].
          unfold lookup in Hp; rewrite Wx in Hp; contradiction.
    - destruct P as [(x & Hx & Px & Wx)|[]].
      destruct Hx as [->|Hx]; [|right; left; left; exists x; auto].
      destruct (prefix_cases _ _ Px) as [->|Hs]; [|right; left; right; auto].
      unfold lookup in Hp; rewrite Wx in Hp; destruct (nval (hget h (snd x))) as [v|]; [|contradiction].
      left; left; reflexivity.
    - right; left; destruct P as [(x & Hx & Px & Wx)|(Wc & k & s & ->)]; [left; exists x; auto|].
      right; rewrite lookup_app, Wc in Hp; unfold lookup in Hp; cbn [walk] in Hp.
      destruct (dget String.eqb (nchilds (hget h (snd c))) k) as [n|] eqn:E; [|contradiction].
      exists k, n, s; split; [apply (dget_In String.eqb String.eqb_spec); exact E|]; split; [reflexivity|].
      apply walk_snoc; exists (snd c); auto.
    - destruct (childs_eqb (nchilds (hget h (snd c))) cs) eqn:Eq.
      + right; left; destruct rest as [|[k0 n0] rest]; cbn [fst snd].
        * destruct P as [(x & Hx & Px & Wx)|(k & n & s & [] & _)]; left; exists x; auto.
        * destruct P as [(x & Hx & Px & Wx)|(k & n & s & Hi & -> & Wn)].
          -- left; exists x; split; [|auto]; rewrite app_assoc, in_app_iff; left; exact Hx.
          -- destruct Hi as [E|Hi].
             ++ injection E as -> ->; left; exists (fst c ++ [k], n); split; [|split; [|exact Wn]].
                ** rewrite app_assoc, in_app_iff; right; left; reflexivity.
                ** exists s; cbn [fst]; rewrite <- app_assoc; reflexivity.
             ++ right; exists k, n, s; auto.
      + right; right; unfold bad; cbn [snd]; destruct (Nat.eqb _ _); auto.
    - destruct P as [(x & [] & _)|[]].
    - destruct P as [(x & [] & _)|[]].
    - destruct P as [(x & [] & _)|[]].
  Qed.

  (** An operation that leaves something under [p]. *)
  Lemma walk_kept : forall m s called o q n, good m s called ->
    walk (fst s) 0 q = Some n -> leads_to_value (fst (map_step kc vc m o)) q ->
    walk (fst (tree_step kc vc (fst s) o)) 0 q = Some n.
  Proof.
    intros m [h g] called o q n [(b & loc & I & Fi) Nd Mp Sh] Hq Hl; cbn [fst snd] in *.
    destruct (step_local kc vc b loc h m o I Nd Mp) as (loc' & _ & _ & _ & _ & _ & _ & K).
    apply K; [exact Hq|]; destruct o; auto.
  Qed.

  Lemma leads_of : forall (m : amap V) q s, dget path_eqb m (q ++ s) <> None -> leads_to_value m q.
  Proof. intros m q s H; exists s; exact H. Qed.

  Lemma pends_op : forall m s called p o, good m s called -> dget path_eqb (fst (map_step kc vc m o)) p <> None ->
    pends (fst s) (snd s) p ->
    pends (fst (tree_step kc vc (fst s) o)) (snd s) p.
  Proof.
    intros m s called p o G Hp P.
    assert (forall q n t, walk (fst s) 0 q = Some n -> p = q ++ t -> walk (fst (tree_step kc vc (fst s) o)) 0 q = Some n) as K.
    { intros q n t Hq ->; apply (walk_kept m s called); [exact G|exact Hq|apply (leads_of _ q t); exact Hp]. }
    destruct P as [(x & Hx & (t & Et) & Wx)|P].
    - left; exists x; split; [exact Hx|]; split; [exists t; exact Et|]; apply (K _ _ t); assumption.
    - right; destruct (snd s) as [| |c todo next|c cs rest todo next| | |]; auto.
      + destruct P as (Wc & k & t & Et); split; [apply (K _ _ (k :: t)); assumption|exists k, t; exact Et].
      + destruct P as (k & n & t & Hi & Et & Wn); exists k, n, t; split; [exact Hi|]; split; [exact Et|].
        apply (K _ _ t); [exact Wn|rewrite <- app_assoc; exact Et].
  Qed.

  (** *** Whole runs *)
  Definition mrun (m : amap V) (ls : list (label V)) : amap V := fold_left mstep ls m.

  Lemma drun_calls : forall l ls (s : dstate V), snd (drun kc vc s (l :: ls)) =
    match snd (dstep kc vc s l) with Some x => [x] | None => [] end ++ snd (drun kc vc (fst (dstep kc vc s l)) ls).
  Proof.
    intros l ls s; cbn [drun]; destruct (dstep kc vc s l) as [s1 c]; cbn [fst snd].
    destruct (drun kc vc s1 ls) as [s2 cs]; destruct c; reflexivity.
  Qed.
  Lemma drun_state : forall l ls (s : dstate V), fst (drun kc vc s (l :: ls)) = fst (drun kc vc (fst (dstep kc vc s l)) ls).
  Proof.
    intros l ls s; cbn [drun]; destruct (dstep kc vc s l) as [s1 c]; cbn [fst snd].
    destruct (drun kc vc s1 ls) as [s2 cs]; reflexivity.
  Qed.
  Lemma drun_app : forall a b (s : dstate V),
    fst (drun kc vc s (a ++ b)) = fst (drun kc vc (fst (drun kc vc s a)) b) /\
    snd (drun kc vc s (a ++ b)) = snd (drun kc vc s a) ++ snd (drun kc vc (fst (drun kc vc s a)) b).
  Proof.
    induction a as [|l a IH]; intros b s; cbn [app]; [split; reflexivity|].
    rewrite !drun_state, !drun_calls, <- app_assoc; destruct (IH b (fst (dstep kc vc s l))) as [-> ->]; auto.
  Qed.

  Lemma new_call_map : forall c : option (path * V), map fst (match c with Some x => [x] | None => [] end) = new_call c.
  Proof. intros [x|]; reflexivity. Qed.

  Lemma good_run : forall ls m s called, good m s called ->
    good (mrun m ls) (fst (drun kc vc s ls)) (called ++ map fst (snd (drun kc vc s ls))).
  Proof.
    induction ls as [|l ls IH]; intros m s called G.
    - cbn [drun fst snd map mrun fold_left]; rewrite app_nil_r; exact G.
    - destruct (good_step m s called l G) as [G1 _].
      specialize (IH _ _ _ G1).
      rewrite drun_state, drun_calls, map_app, new_call_map, app_assoc; exact IH.
  Qed.

  Lemma pends_run : forall ls m s called p, good m s called -> pends (fst s) (snd s) p ->
    (forall a b, ls = a ++ b -> dget path_eqb (mrun m a) p <> None) ->
    let s' := fst (drun kc vc s ls) in
    In p (map fst (snd (drun kc vc s ls))) \/ pends (fst s') (snd s') p \/ bad (snd s').
  Proof.
    induction ls as [|l ls IH]; intros m s called p G P H; cbn zeta.
    - right; left; exact P.
    - rewrite drun_state, drun_calls, map_app, new_call_map.
      destruct (good_step m s called l G) as [G1 _].
      assert (forall a b, ls = a ++ b -> dget path_eqb (mrun (mstep m l) a) p <> None) as H1.
      { intros a b E; apply (H (l :: a) b); rewrite E; reflexivity. }
      assert (In p (new_call (snd (dstep kc vc s l))) \/
              pends (fst (fst (dstep kc vc s l))) (snd (fst (dstep kc vc s l))) p \/ bad (snd (fst (dstep kc vc s l)))) as [D|[D|D]].
      { destruct l as [|o].
        - apply (pends_step m s called p); [exact G|apply (H [] (LStep :: ls)); reflexivity|exact P].
        - right; left; cbn [dstep fst snd]; apply (pends_op m s called); [exact G| |exact P].
          apply (H [LOp o] ls); reflexivity. }
      + left; rewrite in_app_iff; left; exact D.
      + destruct (IH _ _ _ p G1 D H1) as [K|[K|K]]; [left; rewrite in_app_iff; right; exact K|right; left; exact K|right; right; exact K].
      + right; right; clear -D; revert D; generalize (fst (dstep kc vc s l)); intros t D.
        assert (forall ls t, bad (snd t) -> bad (snd (fst (drun kc vc t ls)))) as B.
        { clear; induction ls as [|l ls IH]; intros t D; [exact D|]; rewrite drun_state; apply IH.
          destruct t as [h g]; cbn [snd] in D; destruct l as [|o]; cbn [dstep fst snd]; [|exact D].
          destruct D as [->| ->]; cbn [gen_step snd fst]; unfold bad; auto. }
        apply B; exact D.
  Qed.

  Lemma good_start : forall ops, good (final (map_step kc vc) map_empty ops) (dstart kc vc ops) [].
  Proof.
    intros ops; destruct (history_refines kc vc ops) as [_ (b & loc & I & Nd & Mp)].
    split; cbn [dstart fst snd]; [|exact Nd|exact Mp|].
    - exists b, loc; split; [exact I|]; intros x [<-|[]].
      split; [exact (wf_pos _ _ (proj1 I))|]; split; [exact (wf_root _ _ (proj1 I))|left; reflexivity].
    - exists 0; split.
      + intros x [<-|[]]; reflexivity.
      + repeat constructor; intros [].
      + intros x [].
      + constructor.
      + intros x [].
      + constructor.
      + intros p [].
      + constructor.
  Qed.

  Lemma pends_start : forall ops p, pends (fst (dstart kc vc ops)) (snd (dstart kc vc ops)) p.
  Proof. intros ops p; left; exists ([], 0); split; [left; reflexivity|]; split; [exists p; reflexivity|reflexivity]. Qed.

  Lemma registered_mrun : forall ls ops, registered kc vc ops ls = mrun (final (map_step kc vc) map_empty ops) ls.
  Proof.
    intros ls ops; unfold registered, final; rewrite fold_left_app; unfold mrun.
    generalize (fold_left (fun s o => fst (map_step kc vc s o)) ops map_empty); induction ls as [|l ls IH]; intros m; [reflexivity|].
    destruct l as [|o]; cbn [changes fold_left mstep]; apply IH.
  Qed.

  Lemma mrun_app : forall a b m, mrun m (a ++ b) = mrun (mrun m a) b.
  Proof. intros; apply fold_left_app. Qed.

  Lemma good_after : forall ops ls, good (registered kc vc ops ls) (dafter kc vc ops ls) (map fst (dcalls kc vc ops ls)).
  Proof. intros ops ls; rewrite registered_mrun; apply (good_run ls _ _ []), good_start. Qed.
End Proofs.
