(** C80: the garbage collector does not change what the decorators do. *)
From Verif Require Import Base Deco_Model Gc_Model.
Local Open Scope list_scope.

Section Props.
  Context {P : Type}.

  (** The same program with a registry that keeps everything (Deco_Model): what the decorators return. *)
  Definition keep (o : gop P) : list (op P) := match o with GDef => [Def] | GOn f d => [On f d] | GDie _ | GSweep _ => [] end.
  Definition answer (g : reg P) (o : op P) : reg P * nat := match o with Def => new g OFun | On f d => apply g f d end.
  Fixpoint answers (g : reg P) (os : list (op P)) : reg P * list nat :=
    match os with [] => (g, []) | o :: r => let (g1, n) := answer g o in let (g2, ns) := answers g1 r in (g2, n :: ns) end.

  (** The registry knows about a wrapper only the function that the wrapper keeps alive. *)
  Definition honest (g : reg P) : Prop :=
    (forall k v, get (dec g) k = Some v -> target (objs g) k = Some v) /\ (forall k v, get (unl g) k = Some v -> target (objs g) k = Some v).
  (** The living refer to the living. *)
  Definition closed (l : list (obj P)) (dd : list nat) : Prop := forall k t, target l k = Some t -> alive dd k = true -> alive dd t = true.
  (** The two registries agree about the living. *)
  Definition agree (dd : list nat) (g s : reg P) : Prop :=
    objs g = objs s /\ forall k, alive dd k = true ->
      get (dec g) k = get (dec s) k /\ get (unl g) k = get (unl s) k /\ mem k (forb g) = mem k (forb s) /\ mem k (meth g) = mem k (meth s).

  Definition tidy (g : reg P) : Prop := NoDup (dkeys (dec g)).
  Definition fine (dd : list nat) (g s : reg P) : Prop := agree dd g s /\ honest s /\ closed (objs s) dd /\ tidy g /\ tidy s.

  Lemma find_get : forall dd g s f, fine dd g s -> alive dd f = true ->
    find dd (dec g) f = get (dec s) f /\ find dd (unl g) f = get (unl s) f.
  Proof.
    intros dd g s f ((_ & A) & (Hd & Hu) & C & _) L; unfold find. destruct (A f L) as (-> & -> & _).
    split; [destruct (get (dec s) f) as [v|] eqn:E|destruct (get (unl s) f) as [v|] eqn:E]; try reflexivity.
    - rewrite (C _ _ (Hd _ _ E) L); reflexivity.
    - rewrite (C _ _ (Hu _ _ E) L); reflexivity.
  Qed.
  Lemma original_eq : forall dd g s f, fine dd g s -> alive dd f = true -> original dd g f = get_original s f.
  Proof. intros dd g s f F L; unfold original, get_original. destruct (find_get _ _ _ _ F L) as (-> & ->); reflexivity. Qed.
  Lemma original_alive : forall dd g s f, fine dd g s -> alive dd f = true -> alive dd (get_original s f) = true.
  Proof.
    intros dd g s f ((_ & A) & (Hd & Hu) & C & _) L; unfold get_original.
    destruct (get (dec s) f) as [v|] eqn:E; [exact (C _ _ (Hd _ _ E) L)|]. destruct (get (unl s) f) as [v|] eqn:E2; [exact (C _ _ (Hu _ _ E2) L)|exact L].
  Qed.
  Lemma forbidden_eq : forall dd g s f, fine dd g s -> alive dd f = true -> forbidden dd g f = is_forbidden s f.
  Proof.
    intros dd g s f F L; unfold forbidden, is_forbidden. rewrite (original_eq _ _ _ _ F L).
    destruct (proj2 (proj1 F) _ (original_alive _ _ _ _ F L)) as (_ & _ & Q & _); exact Q.
  Qed.
  Lemma by_class_eq : forall dd g s f, fine dd g s -> alive dd f = true -> by_class dd g f = is_method s f.
  Proof.
    intros dd g s f F L; unfold by_class, is_method. rewrite (original_eq _ _ _ _ F L).
    destruct (proj2 (proj1 F) _ (original_alive _ _ _ _ F L)) as (_ & _ & _ & Q); exact Q.
  Qed.
  Lemma decorated_eq : forall dd g s f, fine dd g s -> alive dd f = true -> decorated dd g f = is_decorator s f.
  Proof. intros dd g s f F L; unfold decorated, is_decorator. rewrite (original_eq _ _ _ _ F L); reflexivity. Qed.

  Lemma mem_In : forall x l, mem x l = true <-> In x l.
  Proof.
    intros x l; unfold mem; rewrite existsb_exists; split; [intros (y & I & E); apply Nat.eqb_eq in E; subst; exact I|].
    intros I; exists x; split; [exact I|apply Nat.eqb_refl].
  Qed.
  Lemma mem_without : forall x o l, mem x (filter (fun y => negb (Nat.eqb y o)) l) = mem x l && negb (Nat.eqb x o).
  Proof.
    intros x o l; induction l as [|y l IH]; [reflexivity|]. cbn [filter]. destruct (Nat.eqb_spec y o) as [->|N]; cbn [negb].
    - rewrite IH; unfold mem; cbn [existsb]. destruct (Nat.eqb x o); cbn [orb negb]; [rewrite !Bool.andb_false_r|]; reflexivity.
    - change (Nat.eqb x y || mem x (filter (fun y => negb (Nat.eqb y o)) l) = (Nat.eqb x y || mem x l) && negb (Nat.eqb x o)). rewrite IH.
      destruct (Nat.eqb_spec x y) as [->|]; cbn [orb]; [|reflexivity]. destruct (Nat.eqb_spec y o); [contradiction|reflexivity].
  Qed.
  Lemma wpop_eq : forall dd g s f k, fine dd g s -> alive dd f = true -> alive dd k = true -> get (wpop dd (dec g) f) k = get (pop (dec s) f) k.
  Proof.
    intros dd g s f k F L K; unfold wpop, pop; rewrite (proj1 (find_get _ _ _ _ F L)).
    destruct F as ((_ & A) & _ & _ & Tg & Ts). destruct (A f L) as (Ef & _), (A k K) as (Ek & _).
    destruct (get (dec s) f) as [v|] eqn:G; unfold get in *.
    - destruct (Nat.eq_dec f k) as [->|N]; [rewrite !(dget_ddel_same _ Nat.eqb_spec) by assumption; reflexivity|].
      rewrite !(dget_ddel_other _ Nat.eqb_spec) by exact N; exact Ek.
    - destruct (Nat.eq_dec f k) as [->|N]; [rewrite (dget_ddel_same _ Nat.eqb_spec) by assumption; congruence|].
      rewrite (dget_ddel_other _ Nat.eqb_spec) by exact N; exact Ek.
  Qed.
  Lemma get_pop_some : forall d f k v, NoDup (dkeys d) -> get (pop d f) k = Some v -> get d k = Some v.
  Proof.
    intros d f k v N H; unfold get, pop in *. destruct (Nat.eq_dec f k) as [->|X]; [rewrite (dget_ddel_same _ Nat.eqb_spec) in H by exact N; discriminate H|].
    rewrite (dget_ddel_other _ Nat.eqb_spec) in H by exact X; exact H.
  Qed.

  Lemma remove_fine : forall dd g s f, fine dd g s -> alive dd f = true -> fine dd (wremove dd g f) (remove s f).
  Proof.
    intros dd g s f F L; unfold wremove, remove; rewrite (decorated_eq _ _ _ _ F L). destruct (is_decorator s f); [|exact F]. cbv zeta.
    rewrite (original_eq _ _ _ _ F L). pose proof (original_alive _ _ _ _ F L) as O. pose proof (fun k => wpop_eq dd g s f k F L) as Wp.
    destruct F as ((Eo & A) & (Hd & Hu) & C & Tg & Ts). split; [|split; [|split; [exact C|]]].
    - split; [exact Eo|]. intros k K; cbn [dec unl forb meth]. destruct (A k K) as (_ & Eu & Ef & Em).
      split; [apply Wp; assumption|]. split; [exact Eu|]. split; [exact Ef|].
      rewrite mem_without. destruct (mem (get_original s f) (meth g)) eqn:M; [rewrite mem_without, Em; reflexivity|].
      rewrite Em. destruct (Nat.eqb_spec k (get_original s f)) as [->|]; [|rewrite Bool.andb_true_r; reflexivity]. rewrite <- Em, M; reflexivity.
    - split; intros k v E; cbn [dec unl objs] in *; [apply Hd, (get_pop_some _ f); assumption|apply Hu; exact E].
    - split; unfold tidy; cbn [dec]; [unfold wpop; destruct (find dd (dec g) f); [apply (NoDup_ddel Nat.eqb)|]; exact Tg|apply (NoDup_ddel Nat.eqb); exact Ts].
  Qed.
  Lemma forbid_fine : forall dd g s f, fine dd g s -> alive dd f = true -> fine dd (wforbid dd g f) (forbid s f).
  Proof.
    intros dd g s f F L; unfold wforbid, forbid; cbv zeta. rewrite (original_eq _ _ _ _ F L). pose proof (original_alive _ _ _ _ F L) as O.
    rewrite (forbidden_eq _ _ _ _ F O). destruct (is_forbidden s (get_original s f)); [exact F|].
    destruct F as ((Eo & A) & H & C & T). split; [|split; [exact H|split; [exact C|exact T]]]. split; [exact Eo|]. intros k K; cbn [dec unl forb meth].
    destruct (A k K) as (Ed & Eu & Ef & Em). split; [exact Ed|]. split; [exact Eu|]. split; [|exact Em]. unfold mem in *; cbn [existsb]; rewrite Ef; reflexivity.
  Qed.
  Lemma target_app : forall (l : list (obj P)) o k, target (l ++ [o]) k =
    if Nat.eqb k (length l) then match o with OLog _ t | OUnlog _ t => Some t | OFun => None end else target l k.
  Proof.
    intros l o k; unfold target. destruct (Nat.eqb_spec k (length l)) as [->|N]; [rewrite nth_error_app2, Nat.sub_diag by lia; destruct o; reflexivity|].
    destruct (Nat.lt_ge_cases k (length l)) as [H|H]; [rewrite nth_error_app1 by exact H; reflexivity|].
    rewrite (proj2 (nth_error_None (l ++ [o]) k)) by (rewrite app_length; cbn; lia). rewrite (proj2 (nth_error_None l k)) by lia. reflexivity.
  Qed.
  (** A new object refers to the living. *)
  Definition sound (dd : list nat) (o : obj P) : Prop := match o with OLog _ t | OUnlog _ t => alive dd t = true | OFun => True end.
  Lemma target_some : forall (l : list (obj P)) k v, target l k = Some v -> k < length l.
  Proof. intros l k v H; unfold target in H. apply nth_error_Some. destruct (nth_error l k); [discriminate|discriminate H]. Qed.
  Lemma new_fine : forall dd g s o, fine dd g s -> sound dd o -> fine dd (fst (new g o)) (fst (new s o)) /\ snd (new g o) = snd (new s o).
  Proof.
    intros dd g s o ((Eo & A) & (Hd & Hu) & C & T) S; unfold new; cbn [fst snd]. split; [|rewrite Eo; reflexivity].
    split; [split; [cbn; rewrite Eo; reflexivity|exact A]|]. split; [|split; [|exact T]].
    - split; intros k v E; cbn [dec unl objs] in *; rewrite target_app; [pose proof (Hd _ _ E) as Q|pose proof (Hu _ _ E) as Q];
        pose proof (target_some _ _ _ Q); destruct (Nat.eqb_spec k (length (objs s))); try lia; exact Q.
    - intros k t; cbn [objs]; rewrite target_app. destruct (Nat.eqb_spec k (length (objs s))); [|apply C]. destruct o; intros Q K; [discriminate Q|..]; injection Q as <-; exact S.
  Qed.
  Lemma get_put : forall d k v x, get (put d k v) x = if Nat.eqb k x then Some v else get d x.
  Proof.
    intros d k v x; unfold get, put. destruct (Nat.eqb_spec k x) as [->|N]; [apply (dget_dset_same _ Nat.eqb_spec)|apply (dget_dset_other _ Nat.eqb_spec); exact N].
  Qed.
  Lemma add_fine : forall dd g s w o m, fine dd g s -> target (objs s) w = Some o -> fine dd (add g w o m) (add s w o m).
  Proof.
    intros dd g s w o m ((Eo & A) & (Hd & Hu) & C & Tg & Ts) W. split; [|split; [|split; [exact C|]]].
    - split; [exact Eo|]. intros k K; cbn [add dec unl forb meth]. destruct (A k K) as (Ed & Eu & Ef & Em). rewrite !get_put, Ed.
      split; [reflexivity|]. split; [exact Eu|]. split; [exact Ef|]. destruct m; [|exact Em]. unfold mem in *; cbn [existsb]; rewrite Em; reflexivity.
    - split; intros k v E; cbn [add dec unl objs] in *; [|apply Hu; exact E]. rewrite get_put in E. destruct (Nat.eqb_spec w k) as [->|]; [congruence|apply Hd; exact E].
    - split; unfold tidy; cbn [add dec]; apply (NoDup_dset _ Nat.eqb_spec); assumption.
  Qed.
  Lemma add_unlogged_fine : forall dd g s w o, fine dd g s -> target (objs s) w = Some o -> fine dd (add_unlogged g w o) (add_unlogged s w o).
  Proof.
    intros dd g s w o ((Eo & A) & (Hd & Hu) & C & T) W. split; [|split; [|split; [exact C|exact T]]].
    - split; [exact Eo|]. intros k K; cbn [add_unlogged dec unl forb meth]. destruct (A k K) as (Ed & Eu & Ef & Em). rewrite !get_put, Eu.
      split; [exact Ed|]. split; [reflexivity|]. split; [exact Ef|exact Em].
    - split; intros k v E; cbn [add_unlogged dec unl objs] in *; [apply Hd; exact E|]. rewrite get_put in E. destruct (Nat.eqb_spec w k) as [->|]; [congruence|apply Hu; exact E].
  Qed.

  Lemma unlog_fine : forall dd g s f full, fine dd g s -> alive dd f = true ->
    fine dd (fst (wunlog dd g f full)) (fst (unlog s f full)) /\ snd (wunlog dd g f full) = snd (unlog s f full).
  Proof.
    intros dd g s f full F L; unfold wunlog, unlog; cbv zeta. rewrite (decorated_eq _ _ _ _ F L), (original_eq _ _ _ _ F L).
    pose proof (original_alive _ _ _ _ F L) as O.
    assert (G : forall g1 s1 r, fine dd g1 s1 -> alive dd r = true ->
      fine dd (fst (let '(g2, w) := new g1 (OUnlog full r) in (add_unlogged g2 w r, w))) (fst (let '(g2, w) := new s1 (OUnlog full r) in (add_unlogged g2 w r, w))) /\
      snd (let '(g2, w) := new g1 (OUnlog full r) in (add_unlogged g2 w r, w)) = snd (let '(g2, w) := new s1 (OUnlog full r) in (add_unlogged g2 w r, w))).
    { intros g1 s1 r F1 R. pose proof (new_fine dd g1 s1 (OUnlog full r) F1 R) as (N & E). cbn [new fst snd] in *. rewrite E.
      split; [|reflexivity]. apply add_unlogged_fine; [exact N|]. cbn [objs]. rewrite target_app, Nat.eqb_refl; reflexivity. }
    destruct (is_decorator s f); [apply (G _ _ _ (forbid_fine _ _ _ _ (remove_fine _ _ _ _ F L) O) O)|apply (G _ _ _ (forbid_fine _ _ _ _ F L) L)].
  Qed.
  Lemma remove_objs : forall (s : reg P) f, objs (remove s f) = objs s.
  Proof. intros s f; unfold remove; destruct (is_decorator s f); reflexivity. Qed.
  Lemma log_fine : forall dd g s f p m, fine dd g s -> alive dd f = true ->
    fine dd (fst (wlog dd g f p m)) (fst (log s f p m)) /\ snd (wlog dd g f p m) = snd (log s f p m).
  Proof.
    intros dd g s f p m F L; unfold wlog, log; cbv zeta. rewrite (original_eq _ _ _ _ F L). pose proof (original_alive _ _ _ _ F L) as O.
    set (o := get_original s f) in *. pose proof (new_fine dd g s (OLog p o) F O) as (N & E).
    destruct (new g (OLog p o)) as [g1 w1] eqn:N1. destruct (new s (OLog p o)) as [s1 w] eqn:N2. cbn [fst snd] in N, E. subst w1.
    assert (T : target (objs s1) w = Some o) by (unfold new in N2; injection N2 as <- <-; cbn [objs]; rewrite target_app, Nat.eqb_refl; reflexivity).
    clearbody o. clear F N1 N2 g s. unfold wchoose, choose. rewrite (forbidden_eq _ _ _ _ N O), (decorated_eq _ _ _ _ N L), (by_class_eq _ _ _ _ N L).
    destruct (is_forbidden s1 o); [apply unlog_fine; assumption|].
    assert (R : forall x, alive dd x = true -> fine dd (add (wremove dd g1 x) w o m) (add (remove s1 x) w o m)).
    { intros x X; apply add_fine; [apply remove_fine; assumption|rewrite remove_objs; exact T]. }
    destruct (is_decorator s1 f); [|split; [apply R; exact O|reflexivity]].
    destruct (is_method s1 f); [split; [apply R; exact L|reflexivity]|]. destruct m; [split; [exact N|reflexivity]|split; [apply R; exact L|reflexivity]].
  Qed.
  Lemma apply_fine : forall dd g s f d, fine dd g s -> alive dd f = true ->
    fine dd (fst (wapply dd g f d)) (fst (apply s f d)) /\ snd (wapply dd g f d) = snd (apply s f d).
  Proof.
    intros dd g s f [p|p|full|] F L; cbn [wapply apply]; [apply log_fine; assumption..|apply unlog_fine; assumption|].
    split; [exact F|]; cbn [snd]. apply original_eq; assumption.
  Qed.

  Lemma alive_app : forall ds dd x, alive (ds ++ dd) x = true <-> alive ds x = true /\ alive dd x = true.
  Proof.
    intros ds dd x; unfold alive, mem. rewrite existsb_app, Bool.negb_orb, Bool.andb_true_iff. reflexivity.
  Qed.
  Lemma die_closed : forall (w : world P) ds, may_die w ds = true -> closed (objs (rg w)) (dead w) -> closed (objs (rg w)) (ds ++ dead w).
  Proof.
    intros w ds M C k t T K. apply Bool.andb_true_iff in M; destruct M as (_ & M). rewrite forallb_forall in M. apply alive_app in K; destruct K as (K1 & K2).
    apply alive_app; split; [|exact (C _ _ T K2)]. specialize (M k). rewrite in_seq in M. pose proof (target_some _ _ _ T) as B. specialize (M (conj (Nat.le_0_l _) B)).
    rewrite T in M. unfold alive in *. destruct (mem k ds); [discriminate K1|]. destruct (mem k (dead w)); [discriminate K2|]. exact M.
  Qed.
  Lemma get_gone : forall x d k, get d k <> Some x -> k <> x -> get (gone x d) k = get d k.
  Proof.
    intros x d k; unfold get, gone. induction d as [|[a b] d IH]; intros N K; [reflexivity|]. cbn [filter fst snd]. cbn [dget] in N |- *. destruct (Nat.eqb_spec k a) as [->|Q].
    - replace (Nat.eqb a x) with false by (symmetry; apply Nat.eqb_neq; exact K). replace (Nat.eqb b x) with false by (symmetry; apply Nat.eqb_neq; congruence).
      cbn [orb negb dget]. rewrite Nat.eqb_refl; reflexivity.
    - destruct (negb _); [cbn [dget]; destruct (Nat.eqb_spec k a); [contradiction|]|]; apply IH; assumption.
  Qed.
  Lemma NoDup_gone : forall x d, NoDup (dkeys d) -> NoDup (dkeys (gone x d)).
  Proof.
    intros x d; unfold gone, dkeys. induction d as [|[a b] d IH]; intros N; [constructor|]. inversion N as [|? ? Na Nd]; subst. cbn [filter].
    destruct (negb _); [|apply IH; exact Nd]. cbn [map fst]. constructor; [|apply IH; exact Nd]. intros I; apply Na. cbn [fst].
    apply in_map_iff in I; destruct I as (e & <- & I). apply filter_In in I. apply in_map; apply I.
  Qed.
  Lemma sweep_fine : forall dd g s k, fine dd g s -> mem k dd = true -> fine dd (sweep g k) s.
  Proof.
    intros dd g s k F D. destruct F as ((Eo & A) & (Hd & Hu) & C & Tg & Ts). split; [|split; [split; assumption|split; [exact C|split; [apply NoDup_gone; exact Tg|exact Ts]]]].
    split; [exact Eo|]. intros x L; cbn [sweep dec unl forb meth]. destruct (A x L) as (Ed & Eu & Ef & Em).
    assert (N : x <> k) by (intros ->; unfold alive in L; rewrite D in L; discriminate L).
    assert (V : forall v, target (objs s) x = Some v -> v <> k).
    { intros v T ->. pose proof (C _ _ T L) as Q. unfold alive in Q; rewrite D in Q; discriminate Q. }
    split; [rewrite get_gone; [exact Ed| |exact N]; rewrite Ed; intros E; exact (V _ (Hd _ _ E) eq_refl)|].
    split; [rewrite get_gone; [exact Eu| |exact N]; rewrite Eu; intros E; exact (V _ (Hu _ _ E) eq_refl)|].
    rewrite !mem_without. replace (Nat.eqb x k) with false by (symmetry; apply Nat.eqb_neq; exact N). cbn [negb]. rewrite !Bool.andb_true_r. split; assumption.
  Qed.

  (** All along the two programs agree. *)
  Lemma run_fine : forall os w s w' rs, grun w os = Some (w', rs) -> fine (dead w) (rg w) s ->
    exists s', answers s (flat_map keep os) = (s', rs) /\ fine (dead w') (rg w') s'.
  Proof.
    induction os as [|o os IH]; intros w s w' rs R F; cbn [grun] in R; [injection R as <- <-; exists s; split; [reflexivity|exact F]|].
    destruct (gstep w o) as [[w1 x]|] eqn:S; [|discriminate R]. destruct (grun w1 os) as [[w2 xs]|] eqn:R2; [|discriminate R]. injection R as <- <-.
    destruct o as [|f d|ds|k]; cbn [gstep] in S; cbn [flat_map keep app].
    - cbn [new] in S. injection S as <- <-. cbn [answers answer].
      pose proof (new_fine (dead w) (rg w) s OFun F I) as (F1 & E). destruct (new s OFun) as [s1 n]. cbn [new fst snd] in F1, E.
      destruct (IH _ s1 _ _ R2 F1) as (s' & A & F2). rewrite A. exists s'. split; [rewrite E; reflexivity|exact F2].
    - destruct (Nat.ltb f (length (objs (rg w))) && alive (dead w) f) eqn:L; [|discriminate S]. apply Bool.andb_true_iff in L; destruct L as (_ & L).
      pose proof (apply_fine (dead w) (rg w) s f d F L) as (F1 & E). destruct (wapply (dead w) (rg w) f d) as [g1 n1]. injection S as <- <-.
      cbn [answers answer]. destruct (apply s f d) as [s1 n]. cbn [fst snd] in F1, E. subst n1.
      destruct (IH _ s1 _ _ R2 F1) as (s' & A & F2). rewrite A. exists s'. split; [reflexivity|exact F2].
    - destruct (may_die w ds) eqn:M; [|discriminate S]. injection S as <- <-. refine (IH _ s _ _ R2 _). cbn [dead rg].
      pose proof F as ((Eo & A) & H & C & T). split; [|split; [exact H|split; [|exact T]]].
      + split; [exact Eo|]. intros k K; apply A. apply alive_app in K; apply K.
      + rewrite <- Eo in C |- *. apply die_closed; assumption.
    - destruct (mem k (dead w)) eqn:D; [|discriminate S]. injection S as <- <-. refine (IH _ s _ _ R2 _). cbn [dead rg]. apply sweep_fine; assumption.
  Qed.
  Lemma start_fine : fine (dead (@start P)) (rg (@start P)) empty.
  Proof.
    split; [split; [reflexivity|intros k _; repeat split]|]. split; [split; intros k v H; discriminate H|]. split; [|split; constructor].
    intros k t H; unfold target in H; cbn in H; destruct k; discriminate H.
  Qed.

  (** C80: a program whose functions are collected gets from the decorators exactly the objects that it would get if nothing were ever collected,
      and they do the same when called. *)
  Theorem C80_same_answers : forall os w rs, grun start os = Some (w, rs) ->
    exists s, answers (@empty P) (flat_map keep os) = (s, rs) /\ objs (rg w) = objs s /\ forall f, layers (rg w) f = layers s f.
  Proof.
    intros os w rs R. destruct (run_fine _ _ _ _ _ R start_fine) as (s & A & ((E & _) & _)). exists s.
    split; [exact A|]. split; [exact E|]. intros f; unfold layers; rewrite E; reflexivity.
  Qed.
  (** C80: what the registry knows about a living object is what it would know if nothing were ever collected. *)
  Theorem C80_same_registry : forall os w rs f, grun start os = Some (w, rs) -> alive (dead w) f = true ->
    let s := fst (answers (@empty P) (flat_map keep os)) in
    original (dead w) (rg w) f = get_original s f /\ forbidden (dead w) (rg w) f = is_forbidden s f /\
    decorated (dead w) (rg w) f = is_decorator s f /\ by_class (dead w) (rg w) f = is_method s f.
  Proof.
    intros os w rs f R L. destruct (run_fine _ _ _ _ _ R start_fine) as (s & A & F). rewrite A; cbn [fst].
    split; [apply original_eq; assumption|]. split; [apply forbidden_eq; assumption|]. split; [apply decorated_eq|apply by_class_eq]; assumption.
  Qed.
  (** C80: and the original of a living object lives: nobody is ever given a dead one. *)
  Theorem C80_original_alive : forall os (w : world P) rs f, grun start os = Some (w, rs) -> alive (dead w) f = true ->
    alive (dead w) (original (dead w) (rg w) f) = true.
  Proof.
    intros os w rs f R L. destruct (run_fine _ _ _ _ _ R start_fine) as (s & A & F). rewrite (original_eq _ _ _ _ F L). exact (original_alive _ _ _ _ F L).
  Qed.

  Definition older (l : list (obj P)) : Prop := forall k t, target l k = Some t -> t < k.
  Lemma original_le : forall (s : reg P) y, honest s -> older (objs s) -> get_original s y <= y.
  Proof.
    intros s y (Hd & Hu) O; unfold get_original. destruct (get (dec s) y) as [v|] eqn:E; [pose proof (O _ _ (Hd _ _ E)); lia|].
    destruct (get (unl s) y) as [v|] eqn:E2; [pose proof (O _ _ (Hu _ _ E2)); lia|lia].
  Qed.
  Lemma forbid_objs : forall (s : reg P) y, objs (forbid s y) = objs s.
  Proof. intros s y; unfold forbid; cbv zeta; destruct (is_forbidden s _); reflexivity. Qed.
  (** What a decorator makes refers to an object older than f, or to f if f is not decorated. *)
  Lemma unlog_made : forall (s : reg P) y full x t, honest s -> older (objs s) -> target (objs (fst (unlog s y full))) x = Some t ->
    target (objs s) x = Some t \/ (x = length (objs s) /\ (t < y \/ (t = y /\ get_original s y = y))).
  Proof.
    intros s y full x t H O; unfold unlog, is_decorator; cbv zeta. pose proof (original_le s y H O) as L.
    destruct (Nat.eqb_spec y (get_original s y)) as [E|N]; cbn [negb new fst snd add_unlogged objs]; rewrite target_app, ?forbid_objs, ?remove_objs;
      (destruct (Nat.eqb_spec x (length (objs s))) as [X|X]; [|left; assumption]); intros Q; injection Q as <-; right; (split; [exact X|]).
    - right; split; [reflexivity|symmetry; exact E].
    - left; lia.
  Qed.
  Lemma new_honest : forall (s : reg P) o, honest s -> honest (fst (new s o)).
  Proof.
    intros s o (Hd & Hu). split; intros k v E; cbn [new fst dec unl objs] in *; rewrite target_app; [pose proof (Hd _ _ E) as Q|pose proof (Hu _ _ E) as Q];
      pose proof (target_some _ _ _ Q); destruct (Nat.eqb_spec k (length (objs s))); try lia; exact Q.
  Qed.
  Lemma log_made : forall (s : reg P) f p m x t, honest s -> older (objs s) -> f < length (objs s) -> target (objs (fst (log s f p m))) x = Some t ->
    target (objs s) x = Some t \/ (length (objs s) <= x /\ (t < f \/ (t = f /\ get_original s f = f))).
  Proof.
    intros s f p m x t H O B; unfold log; cbv zeta. pose proof (original_le s f H O) as L. set (o := get_original s f) in *.
    pose proof (new_honest s (OLog p o) H) as H1. destruct (new s (OLog p o)) as [g w] eqn:N. cbn [fst] in H1.
    assert (G : objs g = objs s ++ [OLog p o]) by (unfold new in N; injection N as <- _; reflexivity).
    assert (O1 : older (objs g)).
    { intros k u; rewrite G, target_app. destruct (Nat.eqb_spec k (length (objs s))) as [->|]; [intros E; injection E as <-; lia|apply O]. }
    assert (A : target (objs g) x = Some t -> target (objs s) x = Some t \/ (length (objs s) <= x /\ (t < f \/ (t = f /\ o = f)))).
    { rewrite G, target_app. destruct (Nat.eqb_spec x (length (objs s))) as [->|]; [|left; assumption]. intros E; injection E as <-. right. split; [lia|].
      destruct (Nat.eq_dec o f) as [->|]; [right; split; reflexivity|left; lia]. }
    unfold choose. destruct (is_forbidden g o).
    - intros T. apply unlog_made in T; [|exact H1|exact O1]. destruct T as [T|(X & T)]; [apply A; exact T|]. right. rewrite G, app_length in X; cbn in X. split; [lia|].
      destruct T as [T|(-> & _)]; [left; lia|]. destruct (Nat.eq_dec o f) as [->|]; [right; split; reflexivity|left; lia].
    - destruct (is_decorator g f); [destruct (is_method g f); [|destruct m]|]; cbn [fst add objs]; rewrite ?remove_objs; exact A.
  Qed.
  Lemma apply_made : forall (s : reg P) f d x t, honest s -> older (objs s) -> f < length (objs s) -> target (objs (fst (apply s f d))) x = Some t ->
    target (objs s) x = Some t \/ (length (objs s) <= x /\ (t < f \/ (t = f /\ get_original s f = f))).
  Proof.
    intros s f [p|p|full|] x t H O B; cbn [apply]; [apply log_made; assumption..| |intros T; left; exact T].
    intros T; apply unlog_made in T; [|assumption..]. destruct T as [T|(-> & T)]; [left; exact T|right; split; [lia|exact T]].
  Qed.
  Lemma run_older : forall os w s w' rs, grun w os = Some (w', rs) -> fine (dead w) (rg w) s -> older (objs (rg w)) -> older (objs (rg w')).
  Proof.
    induction os as [|o os IH]; intros w s w' rs R F O; cbn [grun] in R; [injection R as <- <-; exact O|].
    destruct (gstep w o) as [[w1 x]|] eqn:S; [|discriminate R]. destruct (grun w1 os) as [[w2 xs]|] eqn:R2; [|discriminate R]. injection R as <- <-.
    assert (R1 : grun w [o] = Some (w1, match x with Some n => [n] | None => [] end)) by (cbn [grun]; rewrite S; reflexivity).
    destruct (run_fine _ _ _ _ _ R1 F) as (s1 & A & F1). refine (IH _ _ _ _ R2 F1 _). pose proof F as ((Eo & _) & H & _).
    destruct o as [|f d|ds|k]; cbn [gstep] in S.
    - cbn [new] in S. injection S as <- <-. cbn [rg objs]. intros k t; rewrite target_app. destruct (Nat.eqb k (length (objs (rg w)))); [discriminate|apply O].
    - destruct (Nat.ltb f (length (objs (rg w))) && alive (dead w) f) eqn:L; [|discriminate S]. apply Bool.andb_true_iff in L; destruct L as (B & L). apply Nat.ltb_lt in B.
      pose proof (apply_fine (dead w) (rg w) s f d F L) as (((E1 & _) & _) & _). destruct (wapply (dead w) (rg w) f d) as [g1 n1]. injection S as <- <-. cbn [rg fst] in *.
      rewrite Eo in *. rewrite E1. intros k t T. apply apply_made in T; [|assumption..]. destruct T as [T|(K & [T|(T & _)])]; [apply O; exact T|lia..].
    - destruct (may_die w ds); [|discriminate S]. injection S as <- <-. exact O.
    - destruct (mem k (dead w)); [|discriminate S]. injection S as <- <-. exact O.
  Qed.
  Lemma start_older : older (objs (rg (@start P))).
  Proof. intros k t H; unfold target in H; cbn in H; destruct k; discriminate H. Qed.

  (** C80: when a wrapper is decorated again, nothing that polog makes refers to it: whoever refers to it did so before. *)
  Theorem C80_replaced_is_free : forall os (w : world P) rs f d w' n x, grun start os = Some (w, rs) -> original (dead w) (rg w) f <> f ->
    gstep w (GOn f d) = Some (w', Some n) -> target (objs (rg w')) x = Some f -> target (objs (rg w)) x = Some f.
  Proof.
    intros os w rs f d w' n x R D S T. destruct (run_fine _ _ _ _ _ R start_fine) as (s & _ & F). pose proof (run_older _ _ _ _ _ R start_fine start_older) as O.
    cbn [gstep] in S. destruct (Nat.ltb f (length (objs (rg w))) && alive (dead w) f) eqn:L; [|discriminate S].
    apply Bool.andb_true_iff in L; destruct L as (B & L). apply Nat.ltb_lt in B.
    pose proof (apply_fine (dead w) (rg w) s f d F L) as (((E1 & _) & _) & _). destruct (wapply (dead w) (rg w) f d) as [g1 n1]. injection S as <- <-. cbn [rg fst] in *.
    rewrite (original_eq _ _ _ _ F L) in D. pose proof F as ((Eo & _) & H & _). rewrite Eo in *. rewrite E1 in T. apply apply_made in T; [|assumption..].
    destruct T as [T|(_ & [T|(_ & T)])]; [exact T|lia|contradiction].
  Qed.
  (** C80: a replaced wrapper that was not passed to other wrappers can be collected at once. *)
  Theorem C80_replaced_can_die : forall os (w : world P) rs f d w' n, grun start os = Some (w, rs) -> original (dead w) (rg w) f <> f ->
    (forall x, alive (dead w) x = true -> target (objs (rg w)) x <> Some f) ->
    gstep w (GOn f d) = Some (w', Some n) -> exists w2, gstep w' (GDie [f]) = Some (w2, None).
  Proof.
    intros os w rs f d w' n R D X S. pose proof (fun x => C80_replaced_is_free _ _ _ _ _ _ _ x R D S) as Q.
    assert (Dd : dead w' = dead w /\ f < length (objs (rg w'))).
    { destruct (run_fine _ _ _ _ _ R start_fine) as (s & _ & F). cbn [gstep] in S. destruct (Nat.ltb f (length (objs (rg w))) && alive (dead w) f) eqn:L; [|discriminate S].
      apply Bool.andb_true_iff in L; destruct L as (B & L). apply Nat.ltb_lt in B.
      destruct (wapply (dead w) (rg w) f d) as [g1 n1] eqn:W. injection S as <- <-. split; [reflexivity|]. cbn [rg].
      assert (G : length (objs (rg w)) <= length (objs g1)); [|lia].
      assert (E : g1 = fst (wapply (dead w) (rg w) f d)) by (rewrite W; reflexivity). rewrite E.
      assert (Rm : forall (h : reg P) y, objs (wremove (dead w) h y) = objs h) by (intros h y; unfold wremove; destruct (decorated (dead w) h y); reflexivity).
      assert (Fb : forall (h : reg P) y, objs (wforbid (dead w) h y) = objs h) by (intros h y; unfold wforbid; cbv zeta; destruct (forbidden (dead w) h (original (dead w) h y)); reflexivity).
      assert (Un : forall (h : reg P) y full, length (objs h) <= length (objs (fst (wunlog (dead w) h y full)))).
      { intros h y full; unfold wunlog; cbv zeta. destruct (decorated (dead w) h y); cbn [new fst snd add_unlogged objs]; rewrite app_length, ?Fb, ?Rm; lia. }
      assert (Lg : forall p m, length (objs (rg w)) <= length (objs (fst (wlog (dead w) (rg w) f p m)))).
      { intros p m; unfold wlog; cbv zeta; cbn [new]. set (g := mkReg _ _ _ _ _). assert (length (objs (rg w)) <= length (objs g)) by (subst g; cbn [objs]; rewrite app_length; lia).
        unfold wchoose. destruct (forbidden (dead w) g _); [pose proof (Un g (original (dead w) (rg w) f) None); lia|].
        destruct (decorated (dead w) g f); [destruct (by_class (dead w) g f); [|destruct m]|]; cbn [fst add objs]; rewrite ?Rm; exact H. }
      destruct d; cbn [wapply fst]; [apply Lg|apply Lg|apply Un|lia]. }
    destruct Dd as (Dd & B). cbn [gstep].
    assert (M : may_die w' [f] = true).
    { unfold may_die. apply Bool.andb_true_iff; split; [cbn [forallb]; rewrite (proj2 (Nat.ltb_lt _ _) B); reflexivity|]. apply forallb_forall. intros x _.
      destruct (target (objs (rg w')) x) as [t|] eqn:T; [|rewrite Bool.orb_true_r; reflexivity]. destruct (Nat.eq_dec t f) as [->|N].
      - pose proof (Q _ T) as T0. rewrite Dd. destruct (mem x (dead w)) eqn:Mx; [rewrite Bool.orb_true_r; reflexivity|]. destruct (X x); [unfold alive; rewrite Mx; reflexivity|exact T0].
      - unfold mem at 3; cbn [existsb]. rewrite (proj2 (Nat.eqb_neq _ _) N). cbn. rewrite Bool.orb_true_r; reflexivity. }
    rewrite M. eexists; reflexivity.
  Qed.

  (** C80: when the callbacks about the dead have run, nothing in the registry mentions a dead object. *)
  Definition mentions (g : reg P) (x : nat) : Prop :=
    (exists e, In e (dec g ++ unl g) /\ (x = fst e \/ x = snd e)) \/ In x (forb g) \/ In x (meth g).
  Theorem C80_no_leak : forall (w : world P) ks, (forall k, In k ks -> mem k (dead w) = true) ->
    exists w', grun w (map GSweep ks) = Some (w', []) /\ dead w' = dead w /\ forall x, mentions (rg w') x -> mentions (rg w) x /\ ~ In x ks.
  Proof.
    intros w ks; revert w; induction ks as [|k ks IH]; intros w D; cbn [map grun]; [exists w; split; [reflexivity|split; [reflexivity|]]; intros x M; split; [exact M|intros []]|].
    cbn [gstep]. rewrite (D k (or_introl eq_refl)). destruct (IH (mkWorld (sweep (rg w) k) (dead w)) (fun q Hq => D q (or_intror Hq))) as (w' & R & E & G).
    rewrite R. exists w'. split; [reflexivity|]. split; [exact E|]. intros x M. destruct (G x M) as (M1 & N). cbn [rg] in M1.
    assert (A : forall d e, In e (gone k d) -> In e d /\ fst e <> k /\ snd e <> k).
    { intros d e I; unfold gone in I; apply filter_In in I; destruct I as (I & B). split; [exact I|].
      destruct (Nat.eqb_spec (fst e) k), (Nat.eqb_spec (snd e) k); try discriminate B; split; assumption. }
    assert (A2 : forall l, In x (filter (fun y => negb (Nat.eqb y k)) l) -> In x l /\ x <> k).
    { intros l I; apply filter_In in I; destruct I as (I & B). split; [exact I|]. destruct (Nat.eqb_spec x k); [discriminate B|assumption]. }
    assert (M2 : mentions (rg w) x /\ x <> k).
    { destruct M1 as [(e & I & V)|[I|I]]; cbn [sweep dec unl forb meth] in I.
      - apply in_app_iff in I. assert (J : In e (dec (rg w) ++ unl (rg w)) /\ fst e <> k /\ snd e <> k).
        { destruct I as [I|I]; destruct (A _ _ I) as (I1 & I2); (split; [apply in_app_iff; tauto|exact I2]). }
        destruct J as (J & N1 & N2). split; [left; exists e; split; assumption|destruct V as [-> | ->]; assumption].
      - destruct (A2 _ I); split; [right; left; assumption|assumption].
      - destruct (A2 _ I); split; [right; right; assumption|assumption]. }
    split; [apply M2|]. intros [->|I]; [destruct M2; contradiction|contradiction].
  Qed.
End Props.

(** A function under @log is decorated again, the first wrapper dies, then unlog and log again; later everything dies. *)
Definition story : list (gop nat) :=
  [GDef; GOn 0 (DLog 1); GOn 1 (DLog 2); GDie [1]; GSweep 1; GOn 2 (DUnlog (Some true)); GDie [2]; GDef; GOn 3 (DLog 3); GOn 4 (DMeth 4); GDie [0; 3; 5; 6]; GSweep 0].
Example ex_story : exists w, grun start story = Some (w, [0; 1; 2; 3; 4; 6; 7]) /\ alive (dead w) 4 = true /\ forbidden (dead w) (rg w) 4 = false /\
  original (dead w) (rg w) 7 = 4 /\ snd (answers empty (flat_map keep story)) = [0; 1; 2; 3; 4; 6; 7].
Proof. eexists. split; [vm_compute; reflexivity|]. vm_compute. repeat split. Qed.
(** A function that a living wrapper was made for cannot die. *)
Example ex_kept : grun (@start nat) [GDef; GOn 0 (DLog 1); GDie [0]] = None.
Proof. reflexivity. Qed.
(** After the death of everything and the callbacks the registry is empty. *)
Example ex_empty : exists l dd, grun (@start nat) [GDef; GOn 0 (DMeth 1); GOn 1 (DUnlog None); GDie [0; 1; 2]; GSweep 0; GSweep 1; GSweep 2] =
  Some (mkWorld (mkReg l [] [] [] []) dd, [0; 1; 2]).
Proof. eexists _, _. vm_compute. reflexivity. Qed.

Print Assumptions C80_same_answers.
Print Assumptions C80_same_registry.
Print Assumptions C80_original_alive.
Print Assumptions C80_replaced_is_free.
Print Assumptions C80_replaced_can_die.
Print Assumptions C80_no_leak.
