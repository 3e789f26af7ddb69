(** Proofs about settings changed by several threads. *)
From Verif Require Import Base Settings_Model Settings_Spec Settings_Proofs Race_Model Race_Spec.
Local Open Scope string_scope.
Local Open Scope list_scope.

Section Proofs.
  Variable isident : string -> bool.
  Variable class_or_callable : nat -> bool.
  Variable is_module : nat -> bool.
  Variable has_loads has_dumps loads_callable dumps_callable : nat -> bool.
  Variable debug : bool.
  Variable possible_level_name : string -> bool.
  Notation pts := (points isident class_or_callable is_module has_loads has_dumps loads_callable dumps_callable debug).
  Notation nms := (names isident class_or_callable is_module has_loads has_dumps loads_callable dumps_callable debug).
  Notation c0 := (cfg0 isident class_or_callable is_module has_loads has_dumps loads_callable dumps_callable debug).
  Notation setp := (set_point isident class_or_callable is_module has_loads has_dumps loads_callable dumps_callable debug).
  Notation CIx := (CI isident class_or_callable is_module has_loads has_dumps loads_callable dumps_callable debug).
  Notation lockof := (lock_of isident class_or_callable is_module has_loads has_dumps loads_callable dumps_callable debug).
  Notation pof := (point_of isident class_or_callable is_module has_loads has_dumps loads_callable dumps_callable debug).
  Notation onc := (once isident class_or_callable is_module has_loads has_dumps loads_callable dumps_callable debug).
  Notation prv := (prove isident class_or_callable is_module has_loads has_dumps loads_callable dumps_callable debug).
  Notation mv := (move isident class_or_callable is_module has_loads has_dumps loads_callable dumps_callable debug possible_level_name).
  Notation stp := (step isident class_or_callable is_module has_loads has_dumps loads_callable dumps_callable debug possible_level_name).
  Notation rn := (run isident class_or_callable is_module has_loads has_dumps loads_callable dumps_callable debug possible_level_name).
  Notation s0 := (start isident class_or_callable is_module has_loads has_dumps loads_callable dumps_callable debug).
  Notation aln := (alone isident class_or_callable is_module has_loads has_dumps loads_callable dumps_callable debug possible_level_name).
  Notation rpl := (replay isident class_or_callable is_module has_loads has_dumps loads_callable dumps_callable debug possible_level_name).

  (** *** The table. *)
  Definition lock_list : list (string * string) :=
    map (fun n => (n, if String.eqb n "max_queue_size" || String.eqb n "started" then "pool_size"
                      else if String.eqb n "default_error_level" then "default_level"
                      else if String.eqb n "logging_off" then "integration_with_logging" else n)) nms.
  Lemma locks_eq : locks isident class_or_callable is_module has_loads has_dumps loads_callable dumps_callable debug = lock_list.
  Proof. vm_compute; reflexivity. Qed.
  Lemma lock_of_eq : forall n, lockof n =
    (if String.eqb n "max_queue_size" || String.eqb n "started" then "pool_size"
     else if String.eqb n "default_error_level" then "default_level"
     else if String.eqb n "logging_off" then "integration_with_logging" else n).
  Proof.
    intros n; unfold lock_of; rewrite locks_eq; destruct (dget String.eqb lock_list n) as [k|] eqn:E.
    - apply (dget_In String.eqb String.eqb_spec) in E; unfold lock_list in E; apply in_map_iff in E; destruct E as (m & E & _).
      injection E as -> <-; reflexivity.
    - apply (dget_None String.eqb String.eqb_spec) in E.
      assert (forall m, In m nms -> n <> m) as N.
      { intros m Hm ->; apply E; unfold dkeys, lock_list; rewrite map_map; cbn [fst]; rewrite map_id; exact Hm. }
      rewrite !(proj2 (String.eqb_neq _ _)); [reflexivity|..]; apply N; apply In_existsb; reflexivity.
  Qed.

  Opaque lock_of.

  Lemma point_in : forall n p, dget String.eqb pts n = Some p -> In n nms.
  Proof. intros n p E; apply (dget_In String.eqb String.eqb_spec) in E; apply (in_map fst) in E; exact E. Qed.
  Lemma in_point : forall n, In n nms -> dget String.eqb pts n = Some (pof n).
  Proof.
    intros n H; unfold point_of; destruct (dget String.eqb pts n) eqn:E; [reflexivity|].
    apply (dget_None String.eqb String.eqb_spec) in E; contradiction.
  Qed.
  Lemma point_all : forall P : string -> point -> Prop, Forall (fun x => P (fst x) (snd x)) pts -> forall n, In n nms -> P n (pof n).
  Proof.
    intros P F n Hn; pose proof (in_point n Hn) as E; apply (dget_In String.eqb String.eqb_spec) in E.
    rewrite Forall_forall in F; exact (F _ E).
  Qed.
  Lemma no_before : forall n, In n nms -> p_before_start (pof n) = false.
  Proof. apply (point_all (fun n p => p_before_start p = false)); repeat (apply Forall_cons; [reflexivity|]); apply Forall_nil. Qed.
  Lemma conv_lv : forall n, In n nms -> forall L L' v, lv L = lv L' ->
    match p_converter (pof n) with None => Ok v | Some f => f L v end = match p_converter (pof n) with None => Ok v | Some f => f L' v end.
  Proof.
    apply (point_all (fun n p => forall L L' v, lv L = lv L' ->
      match p_converter p with None => Ok v | Some f => f L v end = match p_converter p with None => Ok v | Some f => f L' v end)).
    repeat (apply Forall_cons; [intros L L' v E; cbn; try reflexivity; unfold levels_get; rewrite E; reflexivity|]); apply Forall_nil.
  Qed.
  Lemma conflict_lock : forall n, In n nms -> forall m f, In (m, f) (p_conflicts (pof n)) -> lockof m = lockof n /\ m <> n /\ In m nms.
  Proof.
    apply (point_all (fun n p => forall m f, In (m, f) (p_conflicts p) -> lockof m = lockof n /\ m <> n /\ In m nms)).
    repeat (apply Forall_cons; [cbn [fst snd p_conflicts flag]; intros m f H; repeat (destruct H as [H|H]; [injection H as <- _; rewrite !lock_of_eq; split; [reflexivity|split; [discriminate|apply In_existsb; reflexivity]]|]); destruct H|]).
    apply Forall_nil.
  Qed.

  (** *** One assignment through the table. *)
  Definition clash (c : cfg) (w : pyval) (cf : list (string * (pyval -> pyval -> bool))) : bool := existsb (fun nf => snd nf w (val c (fst nf))) cf.

  Lemma setp_eq : forall c n v, In n nms ->
    setp c n v = match onc c n with
                 | Err e => (c, Err e)
                 | Ok _ => match prv c n v with
                           | Err e => (c, Err e)
                           | Ok w => if clash c w (p_conflicts (pof n)) then (c, Err EValueError)
                                     else (mkCfg (dset String.eqb (vals c) n w) (n :: changed c) (lvls c), Ok tt)
                           end
                 end.
  Proof.
    intros c n v H; unfold set_point; rewrite (in_point n H); unfold once, prove, clash, conflicting.
    destruct (existsb (String.eqb n) (changed c) && p_once (pof n)); [reflexivity|].
    destruct (p_before_start (pof n) && eq_true (val c "started")); [reflexivity|].
    destruct (negb (forallb (fun f => f v) (p_proves (pof n)))); [reflexivity|].
    destruct (match p_converter (pof n) with None => Ok v | Some f => f (lvls c) v end); reflexivity.
  Qed.
  Lemma aln_set : forall c n v, aln c (OSet n v) = setp c n v.
  Proof. intros c n v; cbn [alone config_set]; destruct (setp c n v) as [c' [[]|e]]; reflexivity. Qed.

  Definition csame (c g : cfg) (n : string) : Prop := In n (changed g) <-> In n (changed c).
  Definition vsame (c g : cfg) (n : string) : Prop := val g n = val c n.

  Lemma onc_eq : forall c g n, In n nms -> csame c g n -> onc g n = onc c n.
  Proof.
    intros c g n Hn H; unfold once; rewrite (no_before n Hn).
    assert (existsb (String.eqb n) (changed g) = existsb (String.eqb n) (changed c)) as ->; [|reflexivity].
    apply eq_true_iff_eq; rewrite !In_existsb; exact H.
  Qed.
  Lemma prv_eq : forall c g n v, In n nms -> lv (lvls g) = lv (lvls c) -> prv g n v = prv c n v.
  Proof. intros c g n v Hn H; unfold prove; rewrite (conv_lv n Hn _ _ v H); reflexivity. Qed.
  Lemma clash_eq : forall c g w cf, (forall m f, In (m, f) cf -> vsame c g m) -> clash g w cf = clash c w cf.
  Proof.
    intros c g w cf; induction cf as [|[m f] cf IH]; intros H; [reflexivity|].
    unfold clash in *; cbn [existsb fst snd]; rewrite (H m f (or_introl eq_refl)), IH; [reflexivity|].
    intros m' f' H'; apply (H m' f'); right; exact H'.
  Qed.

  (** *** What the threads are at. *)
  Notation pcT := pc.
  Definition holds (p : pcT) : option string :=
    match p with Once n _ _ | Prove n _ _ | Conf n _ _ _ _ | Chg n _ _ | Rel n _ _ | Fail n _ _ => Some n | _ => None end.
  Definition conf_on (n : string) (p : pcT) : Prop := match p with Conf m _ _ _ _ => m = n | _ => False end.
  Definition chg_on (n : string) (p : pcT) : Prop := match p with Chg m _ _ => m = n | _ => False end.
  Definition wf_op (o : op) : Prop := match o with OReg false _ v => nonneg v | _ => True end.
  Definition wf_ops (p : pcT) : Prop :=
    match p with Todo l | Wait _ _ l | Once _ _ l | Prove _ _ l | Conf _ _ _ _ l | Chg _ _ l | Rel _ _ l | Half _ _ _ l => Forall wf_op l | _ => True end.
  Definition point_named (p : pcT) : Prop :=
    match p with Wait n _ _ | Once n _ _ | Prove n _ _ | Conf n _ _ _ _ | Chg n _ _ | Rel n _ _ | Fail n _ _ => In n nms | _ => True end.

  Definition T (c g : cfg) (p : pcT) : Prop :=
    match p with
    | Prove n v l => onc c n = Ok tt
    | Conf n v w cf l =>
        onc c n = Ok tt /\
        (exists L, (forall m u, dget String.eqb (lv L) m = Some u -> nonneg u) /\ prv (mkCfg (vals c) (changed c) L) n v = Ok w) /\
        (exists pre, p_conflicts (pof n) = pre ++ cf /\ clash c w pre = false) /\
        (if clash c w cf then vsame c g n /\ csame c g n else val g n = w /\ In n (changed g))
    | Chg n v l => In n (changed g)
    | _ => True
    end.
  Definition pend (c : cfg) (p : pcT) : list (op * Res unit) :=
    match p with
    | Conf n v w cf l => [(OSet n v, if clash c w cf then Err EValueError else Ok tt)]
    | Chg n v _ | Rel n v _ => [(OSet n v, Ok tt)]
    | Fail n v e => [(OSet n v, Err e)]
    | Half k n v _ => [(OReg k n v, Ok tt)]
    | _ => []
    end.
  Definition tag (t : nat) (l : list (op * Res unit)) : list (nat * op * Res unit) := map (fun x => (t, fst x, snd x)) l.

  (** Nothing about the points of the lock [k] has changed. *)
  Definition same_on (k : string) (c g c' g' : cfg) : Prop :=
    forall m, lockof m = k -> val c' m = val c m /\ val g' m = val g m /\ csame c c' m /\ csame g g' m.

  Lemma prv_vals : forall c c' L n v, prv (mkCfg (vals c) (changed c) L) n v = prv (mkCfg (vals c') (changed c') L) n v.
  Proof. reflexivity. Qed.

  Lemma T_same : forall c g c' g' p, point_named p -> T c g p -> (forall n, holds p = Some n -> same_on (lockof n) c g c' g') -> T c' g' p.
  Proof.
    intros c g c' g' p Hn HT S; destruct p as [|l|n v l|n v l|n v l|n v w cf l|n v l|n v l|n v e|k n v l]; cbn [T] in *; trivial;
      specialize (S n eq_refl); cbn [point_named] in Hn.
    - rewrite <- HT; apply onc_eq; [exact Hn|apply (S n eq_refl)].
    - destruct HT as (H1 & H2 & (pre & E & H3) & H4).
      assert (forall m f, In (m, f) (pre ++ cf) -> vsame c c' m) as V.
      { intros m f Hm; rewrite <- E in Hm; destruct (conflict_lock n Hn m f Hm) as (K & _); apply (S m K). }
      assert (clash c' w cf = clash c w cf) as Ec by (apply clash_eq; intros m f Hm; apply (V m f), in_or_app; auto).
      assert (clash c' w pre = clash c w pre) as Ep by (apply clash_eq; intros m f Hm; apply (V m f), in_or_app; auto).
      destruct (S n eq_refl) as (S1 & S2 & S3 & S4); unfold vsame, csame in *.
      split; [rewrite <- H1; apply onc_eq; [exact Hn|exact S3]|]; split; [exact H2|].
      split; [exists pre; split; [exact E|congruence]|].
      rewrite Ec; destruct (clash c w cf); rewrite S2; [rewrite S1, S3, S4; exact H4|]; destruct H4 as [H4 H5]; split; [exact H4|apply S4, H5].
    - destruct (S n eq_refl) as (S1 & S2 & S3 & S4); apply S4, HT.
  Qed.
  Lemma pend_same : forall c g c' g' p, point_named p -> T c g p -> (forall n, holds p = Some n -> same_on (lockof n) c g c' g') -> pend c' p = pend c p.
  Proof.
    intros c g c' g' p Hn HT S; destruct p as [|l|n v l|n v l|n v l|n v w cf l|n v l|n v l|n v e|k n v l]; try reflexivity.
    cbn [pend T point_named] in *; specialize (S n eq_refl); destruct HT as (_ & _ & (pre & E & _) & _).
    rewrite (clash_eq c c'); [reflexivity|].
    intros m f Hm; destruct (conflict_lock n Hn m f) as (K & _); [rewrite E; apply in_or_app; auto|]; apply (S m K).
  Qed.

  (** *** The invariant: [g], [rs] are what the order chosen so far gives. *)
  Record locking (h : string -> bool) (ps : nat -> pcT) : Prop := {
    lk_held : forall t n, holds (ps t) = Some n -> h (lockof n) = true;
    lk_one : forall t u n m, holds (ps t) = Some n -> holds (ps u) = Some m -> lockof n = lockof m -> t = u;
    lk_who : forall k, h k = true -> exists t n, holds (ps t) = Some n /\ lockof n = k
  }.
  Record Inv (s : st) (g : cfg) (rs : list (nat * op * Res unit)) : Prop := {
    iv_lock : locking (held s) (pcs s);
    iv_named : forall t, point_named (pcs s t);
    iv_wf : forall t, wf_ops (pcs s t);
    iv_val : forall n, vsame (conf s) g n \/ exists t, conf_on n (pcs s t);
    iv_chg : forall n, csame (conf s) g n \/ exists t, conf_on n (pcs s t) \/ chg_on n (pcs s t);
    iv_lv : lv (lvls g) = lv (lvls (conf s));
    iv_T : forall t, T (conf s) g (pcs s t);
    iv_g : CIx g;
    iv_c : exists ch, (forall n, In n ch <-> In n (changed (conf s)) \/ exists t, chg_on n (pcs s t)) /\ CIx (mkCfg (vals (conf s)) ch (lvls (conf s)));
    iv_p : forall t, part t rs = part t (hist s) ++ tag t (pend (conf s) (pcs s t))
  }.

  Lemma upd_same : forall {B} (f : nat -> B) t b, upd f t b t = b.
  Proof. intros; unfold upd; rewrite Nat.eqb_refl; reflexivity. Qed.
  Lemma upd_other : forall {B} (f : nat -> B) t b u, u <> t -> upd f t b u = f u.
  Proof. intros B f t b u H; unfold upd; rewrite (proj2 (Nat.eqb_neq _ _) H); reflexivity. Qed.
  Lemma part_app : forall t a b, part t (a ++ b) = part t a ++ part t b.
  Proof. intros; unfold part; apply filter_app. Qed.
  Lemma part_tag : forall t l, part t (tag t l) = tag t l.
  Proof. intros t l; induction l as [|x l IH]; [reflexivity|]; cbn; rewrite Nat.eqb_refl; f_equal; exact IH. Qed.
  Lemma part_tag_other : forall t u l, t <> u -> part t (tag u l) = [].
  Proof. intros t u l H; induction l as [|x l IH]; [reflexivity|]; cbn; rewrite (proj2 (Nat.eqb_neq u t)) by congruence; exact IH. Qed.
  Lemma tag_app : forall t a b, tag t (a ++ b) = tag t a ++ tag t b.
  Proof. intros; unfold tag; apply map_app. Qed.

  (** A move that leaves the lock to whoever had it. *)
  Lemma locking_keep : forall h ps t p, locking h ps -> holds p = holds (ps t) -> locking h (upd ps t p).
  Proof.
    intros h ps t p [A B C] E.
    assert (forall u, holds (upd ps t p u) = holds (ps u)) as F.
    { intros u; unfold upd; destruct (Nat.eqb_spec u t); [subst; exact E|reflexivity]. }
    constructor.
    - intros u n H; rewrite F in H; eapply A; exact H.
    - intros u v n m H1 H2 K; rewrite F in H1, H2; eapply B; eassumption.
    - intros k H; destruct (C k H) as (u & n & H1 & H2); exists u, n; rewrite F; auto.
  Qed.
  Lemma locking_take : forall h ps t p n, locking h ps -> holds (ps t) = None -> h (lockof n) = false -> holds p = Some n ->
    locking (take h (lockof n) true) (upd ps t p).
  Proof.
    intros h ps t p n [A B C] H0 Hf Hp.
    assert (forall u m, u <> t -> holds (ps u) = Some m -> lockof m <> lockof n) as D.
    { intros u m _ H E; specialize (A u m H); rewrite E in A; congruence. }
    constructor.
    - intros u m H; unfold take; destruct (String.eqb_spec (lockof m) (lockof n)); [reflexivity|].
      unfold upd in H; destruct (Nat.eqb_spec u t); [rewrite Hp in H; injection H as ->; congruence|apply (A u m H)].
    - intros u v m m' H1 H2 K; unfold upd in H1, H2.
      destruct (Nat.eqb_spec u t) as [->|N1], (Nat.eqb_spec v t) as [->|N2]; try reflexivity.
      + rewrite Hp in H1; injection H1 as <-; exfalso; apply (D v m' N2 H2); congruence.
      + rewrite Hp in H2; injection H2 as <-; exfalso; apply (D u m N1 H1); congruence.
      + eapply B; eassumption.
    - intros k H; unfold take in H; destruct (String.eqb_spec k (lockof n)) as [Ek|N]; [rewrite Ek|].
      + exists t, n; rewrite upd_same; auto.
      + destruct (C k H) as (u & m & H1 & H2); exists u, m; split; [|exact H2].
        rewrite upd_other; [exact H1|]; intros ->; congruence.
  Qed.
  Lemma locking_free : forall h ps t p n, locking h ps -> holds (ps t) = Some n -> holds p = None ->
    locking (take h (lockof n) false) (upd ps t p).
  Proof.
    intros h ps t p n [A B C] H0 Hp.
    assert (forall u m, u <> t -> holds (ps u) = Some m -> lockof m <> lockof n) as D.
    { intros u m N H E; apply N; eapply B; eassumption. }
    constructor.
    - intros u m H; unfold upd in H; destruct (Nat.eqb_spec u t) as [->|N]; [congruence|].
      unfold take; rewrite (proj2 (String.eqb_neq _ _) (D u m N H)); apply (A u m H).
    - intros u v m m' H1 H2 K; unfold upd in H1, H2.
      destruct (Nat.eqb_spec u t) as [->|N1]; [congruence|]; destruct (Nat.eqb_spec v t) as [->|N2]; [congruence|]; eapply B; eassumption.
    - intros k H; unfold take in H; destruct (String.eqb_spec k (lockof n)) as [Ek|N]; [discriminate H|].
      destruct (C k H) as (u & m & H1 & H2); exists u, m; split; [|exact H2].
      rewrite upd_other; [exact H1|]; intros ->; rewrite H0 in H1; injection H1 as ->; congruence.
  Qed.

  Lemma moved : forall s g rs t c' g' h' p' hn rnn,
    Inv s g rs ->
    locking h' (upd (pcs s) t p') -> point_named p' -> wf_ops p' ->
    (forall m, (exists n, holds (pcs s t) = Some n /\ lockof m = lockof n) \/ (val c' m = val (conf s) m /\ val g' m = val g m /\ csame (conf s) c' m /\ csame g g' m)) ->
    (forall m, vsame (conf s) g m \/ conf_on m (pcs s t) -> vsame c' g' m \/ conf_on m p') ->
    (forall m, csame (conf s) g m \/ conf_on m (pcs s t) \/ chg_on m (pcs s t) -> csame c' g' m \/ conf_on m p' \/ chg_on m p') ->
    lv (lvls g') = lv (lvls c') -> T c' g' p' -> CIx g' ->
    (exists ch, (forall n, In n ch <-> In n (changed c') \/ exists u, chg_on n (upd (pcs s) t p' u)) /\ CIx (mkCfg (vals c') ch (lvls c'))) ->
    pend (conf s) (pcs s t) ++ rnn = hn ++ pend c' p' ->
    Inv (mkSt c' h' (upd (pcs s) t p') (hist s ++ tag t hn)) g' (rs ++ tag t rnn).
  Proof.
    intros s g rs t c' g' h' p' hn rnn I Hl Hn Hw Hf Hv Hc Hlv HT Hg Hci Hp.
    assert (forall u, u <> t -> forall n, holds (pcs s u) = Some n -> same_on (lockof n) (conf s) g c' g') as SO.
    { intros u N n H m K; destruct (Hf m) as [(n' & H1 & H2)|H1]; [|exact H1].
      exfalso; apply N; eapply (lk_one _ _ (iv_lock _ _ _ I)); [exact H|exact H1|congruence]. }
    constructor; cbn [conf held pcs hist]; try assumption.
    - intros u; unfold upd; destruct (Nat.eqb u t); [exact Hn|apply (iv_named _ _ _ I)].
    - intros u; unfold upd; destruct (Nat.eqb u t); [exact Hw|apply (iv_wf _ _ _ I)].
    - intros m; destruct (iv_val _ _ _ I m) as [V|(u & V)].
      + destruct (Hv m (or_introl V)) as [V'|V']; [left; exact V'|right; exists t; rewrite upd_same; exact V'].
      + destruct (Nat.eq_dec u t) as [->|N].
        * destruct (Hv m (or_intror V)) as [V'|V']; [left; exact V'|right; exists t; rewrite upd_same; exact V'].
        * right; exists u; rewrite upd_other by exact N; exact V.
    - intros m; destruct (iv_chg _ _ _ I m) as [V|(u & V)].
      + destruct (Hc m (or_introl V)) as [V'|V']; [left; exact V'|right; exists t; rewrite upd_same; exact V'].
      + destruct (Nat.eq_dec u t) as [->|N].
        * destruct (Hc m (or_intror V)) as [V'|V']; [left; exact V'|right; exists t; rewrite upd_same; exact V'].
        * right; exists u; rewrite upd_other by exact N; exact V.
    - intros u; unfold upd; destruct (Nat.eqb_spec u t) as [->|N]; [exact HT|].
      apply (T_same (conf s) g); [apply (iv_named _ _ _ I)|apply (iv_T _ _ _ I)|apply (SO u N)].
    - intros u; rewrite !part_app, (iv_p _ _ _ I u); unfold upd; destruct (Nat.eqb_spec u t) as [->|N].
      + rewrite !part_tag, <- !app_assoc, <- !tag_app, Hp; reflexivity.
      + rewrite !(part_tag_other u t) by exact N; rewrite !app_nil_r.
        rewrite (pend_same (conf s) g c' g' (pcs s u)); [reflexivity|apply (iv_named _ _ _ I)|apply (iv_T _ _ _ I)|apply (SO u N)].
  Qed.
  (** The same when the settings do not change. *)
  Lemma idle_frame : forall c g m t (s : st), (exists n, holds (pcs s t) = Some n /\ lockof m = lockof n) \/ (val c m = val c m /\ val g m = val g m /\ csame c c m /\ csame g g m).
  Proof. intros; right; unfold csame; repeat split; auto. Qed.
  Lemma chg_keep : forall s t p', (forall n, chg_on n p' <-> chg_on n (pcs s t)) ->
    forall ch c, (forall n, In n ch <-> In n c \/ exists u, chg_on n (pcs s u)) -> forall n, In n ch <-> In n c \/ exists u, chg_on n (upd (pcs s) t p' u).
  Proof.
    intros s t p' E ch c H n; rewrite H.
    assert ((exists u, chg_on n (upd (pcs s) t p' u)) <-> exists u, chg_on n (pcs s u)) as ->; [|reflexivity].
    assert (forall u, chg_on n (upd (pcs s) t p' u) <-> chg_on n (pcs s u)) as F.
    { intros u; unfold upd; destruct (Nat.eqb_spec u t) as [->|N]; [apply E|reflexivity]. }
    split; intros (u & H'); exists u; apply F; exact H'.
  Qed.

  Lemma moved_quiet : forall s g rs t h' p' hn,
    Inv s g rs -> locking h' (upd (pcs s) t p') -> point_named p' -> wf_ops p' ->
    (forall m, conf_on m (pcs s t) <-> conf_on m p') -> (forall m, chg_on m p' <-> chg_on m (pcs s t)) ->
    T (conf s) g p' -> pend (conf s) (pcs s t) = hn ++ pend (conf s) p' ->
    Inv (mkSt (conf s) h' (upd (pcs s) t p') (hist s ++ tag t hn)) g rs.
  Proof.
    intros s g rs t h' p' hn I Hl Hn Hw E1 E2 HT Hp.
    replace rs with (rs ++ tag t []) by (cbn; apply app_nil_r).
    apply (moved s g rs t (conf s) g h' p' hn []); try assumption.
    - intros m; apply idle_frame.
    - intros m; rewrite E1; auto.
    - intros m; rewrite E1, E2; auto.
    - apply (iv_lv _ _ _ I).
    - apply (iv_g _ _ _ I).
    - destruct (iv_c _ _ _ I) as (ch & H1 & H2); exists ch; split; [apply chg_keep; assumption|exact H2].
    - rewrite app_nil_r; exact Hp.
  Qed.
  Lemma quiet0 : forall s g rs t h' p',
    Inv s g rs -> locking h' (upd (pcs s) t p') -> point_named p' -> wf_ops p' ->
    (forall m, conf_on m (pcs s t) <-> conf_on m p') -> (forall m, chg_on m p' <-> chg_on m (pcs s t)) ->
    T (conf s) g p' -> pend (conf s) (pcs s t) = pend (conf s) p' ->
    Inv (mkSt (conf s) h' (upd (pcs s) t p') (hist s)) g rs.
  Proof.
    intros s g rs t h' p' I Hl Hn Hw E1 E2 HT Hp; rewrite <- (app_nil_r (hist s)); apply (moved_quiet s g rs t h' p' []); assumption.
  Qed.
  (** The same, with an operation refused here and now. *)
  Lemma moved_refused : forall s g rs t p' hn o e,
    Inv s g rs -> holds p' = holds (pcs s t) -> point_named p' -> wf_ops p' ->
    (forall m, ~ conf_on m (pcs s t)) -> (forall m, ~ chg_on m (pcs s t)) -> (forall m, ~ conf_on m p') -> (forall m, ~ chg_on m p') ->
    T (conf s) g p' -> pend (conf s) (pcs s t) = [] -> aln g o = (g, Err e) -> [(o, Err e)] = hn ++ pend (conf s) p' ->
    Inv (mkSt (conf s) (held s) (upd (pcs s) t p') (hist s ++ tag t hn)) (fst (aln g o)) (rs ++ [(t, o, snd (aln g o))]).
  Proof.
    intros s g rs t p' hn o e I Hh Hn Hw A1 A2 A3 A4 HT Hp Ha He; rewrite Ha; cbn [fst snd].
    change [(t, o, Err e)] with (tag t [(o, @Err unit e)]).
    apply (moved s g rs t (conf s) g (held s) p' hn [(o, Err e)]); try assumption.
    - apply locking_keep; [apply (iv_lock _ _ _ I)|exact Hh].
    - intros m; apply idle_frame.
    - intros m [H|H]; [auto|exfalso; exact (A1 _ H)].
    - intros m [H|[H|H]]; [auto|exfalso; exact (A1 _ H)|exfalso; exact (A2 _ H)].
    - apply (iv_lv _ _ _ I).
    - apply (iv_g _ _ _ I).
    - destruct (iv_c _ _ _ I) as (ch & H1 & H2); exists ch; split; [|exact H2].
      apply chg_keep; [|exact H1]; intros m; split; intros H; [destruct (A4 _ H)|destruct (A2 _ H)].
    - rewrite Hp; exact He.
  Qed.

  (** *** The order: an operation takes its place when the values it looks at are settled. *)
  Definition commit (s : st) (x : label) : list (nat * op) :=
    match x with
    | LCall _ _ => []
    | LMove t =>
        match pcs s t with
        | Todo (OSet n v :: _) => match dget String.eqb pts n with None => [(t, OSet n v)] | Some _ => [] end
        | Once n v _ => match onc (conf s) n with Err _ => [(t, OSet n v)] | Ok _ => [] end
        | Prove n v _ => [(t, OSet n v)]
        | Todo (OReg k n v :: _) => [(t, OReg k n v)]
        | _ => []
        end
    end.
  Fixpoint order (s : st) (xs : list label) : list (nat * op) :=
    match xs with [] => [] | x :: r => match stp s x with Some s1 => commit s x ++ order s1 r | None => [] end end.
  Lemma order_app : forall xs ys s, exists more, order s (xs ++ ys) = order s xs ++ more.
  Proof.
    induction xs as [|x xs IH]; intros ys s; cbn [app order]; [eexists; reflexivity|].
    destruct (stp s x) as [s1|]; [|exists []; reflexivity]; destruct (IH ys s1) as (more & ->); exists more; rewrite app_assoc; reflexivity.
  Qed.

  Lemma rpl_app : forall a b c, rpl c (a ++ b) = (fst (rpl (fst (rpl c a)) b), snd (rpl c a) ++ snd (rpl (fst (rpl c a)) b)).
  Proof.
    induction a as [|[t o] a IH]; intros b c; cbn [app replay fst snd]; [destruct (rpl c b); reflexivity|].
    rewrite IH; reflexivity.
  Qed.

  Lemma Half_levels : forall k n v, match reg_check possible_level_name k n v with
    | Ok _ => forall c, aln c (OReg k n v) = (mkCfg (vals c) (changed c) (mkLevels (dset String.eqb (lv (lvls c)) n v) (dset Z.eqb (lv_rev (lvls c)) (num v) n)), Ok tt)
    | Err e => forall c, aln c (OReg k n v) = (c, Err e) end.
  Proof.
    intros [|] n v; unfold reg_check; cbn [alone config_levels levels_set].
    - destruct (is_int v) eqn:E; cbn [negb]; [|reflexivity].
      destruct (ge0 v); cbn [negb]; [|reflexivity]; destruct (possible_level_name n); cbn [negb]; intros c; reflexivity.
    - destruct (is_int v); cbn [fst snd]; [reflexivity|]; intros [a b d]; reflexivity.
  Qed.
  Lemma reg_nonneg : forall k n v, wf_op (OReg k n v) -> reg_check possible_level_name k n v = Ok tt -> nonneg v.
  Proof.
    intros [|] n v W; unfold reg_check; [|intros _; exact W].
    destruct (is_int v) eqn:E1; cbn [negb]; [|discriminate]; destruct (ge0 v) eqn:E2; cbn [negb]; [|discriminate].
    intros _; apply ge0_nonneg; assumption.
  Qed.

  Lemma ops_wf : forall o, Forall wf_op (ops_of o).
  Proof.
    intros [kw|kw|]; cbn [ops_of].
    - apply Forall_map, Forall_forall; intros; exact I.
    - apply Forall_map, Forall_forall; intros; exact I.
    - unfold standard; cbn [flat_map app]; repeat (apply Forall_cons; [right; eexists; split; [reflexivity|lia]|]); apply Forall_nil.
  Qed.

  Lemma csame_mine : forall s g rs t n, Inv s g rs -> holds (pcs s t) = Some n -> ~ conf_on n (pcs s t) -> ~ chg_on n (pcs s t) -> csame (conf s) g n.
  Proof.
    intros s g rs t n I H A B; destruct (iv_chg _ _ _ I n) as [V|(u & V)]; [exact V|exfalso].
    assert (holds (pcs s u) = Some n) as H' by (destruct (pcs s u); cbn in V |- *; destruct V as [V|V]; try contradiction; rewrite V; reflexivity).
    assert (u = t) as -> by (eapply (lk_one _ _ (iv_lock _ _ _ I)); [exact H'|exact H|reflexivity]); tauto.
  Qed.
  Lemma vsame_mine : forall s g rs t n m, Inv s g rs -> holds (pcs s t) = Some n -> lockof m = lockof n -> ~ conf_on m (pcs s t) -> vsame (conf s) g m.
  Proof.
    intros s g rs t n m I H K A; destruct (iv_val _ _ _ I m) as [V|(u & V)]; [exact V|exfalso].
    assert (holds (pcs s u) = Some m) as H' by (destruct (pcs s u); cbn in V |- *; try contradiction; rewrite V; reflexivity).
    assert (u = t) as -> by (eapply (lk_one _ _ (iv_lock _ _ _ I)); [exact H'|exact H|exact K]); tauto.
  Qed.

  Lemma setp_known : forall g rs s t n v l, Inv s g rs -> pcs s t = Prove n v l ->
    setp g n v = match prv (conf s) n v with
                 | Err e => (g, Err e)
                 | Ok w => if clash (conf s) w (p_conflicts (pof n)) then (g, Err EValueError)
                           else (mkCfg (dset String.eqb (vals g) n w) (n :: changed g) (lvls g), Ok tt)
                 end.
  Proof.
    intros g rs s t n v l I E.
    pose proof (iv_named _ _ _ I t) as Hn; rewrite E in Hn; cbn [point_named] in Hn.
    pose proof (iv_T _ _ _ I t) as HT; rewrite E in HT; cbn [T] in HT.
    rewrite (setp_eq g n v Hn).
    rewrite (onc_eq (conf s) g n Hn), HT by (eapply csame_mine; [exact I|rewrite E; reflexivity|rewrite E; intros []|rewrite E; intros []]).
    rewrite (prv_eq (conf s) g n v Hn (iv_lv _ _ _ I)); destruct (prv (conf s) n v) as [w|e]; [|reflexivity].
    rewrite (clash_eq (conf s) g); [reflexivity|]; intros m f Hm; destruct (conflict_lock n Hn m f Hm) as (K & _).
    eapply vsame_mine; [exact I|rewrite E; reflexivity|exact K|rewrite E; intros []].
  Qed.

  Lemma val_set : forall (c : cfg) n w ch L m, val (mkCfg (dset String.eqb (vals c) n w) ch L) m = if String.eqb m n then w else val c m.
  Proof. intros; apply val_dset. Qed.

  Lemma Inv_step : forall s x s' g rs, Inv s g rs -> stp s x = Some s' ->
    Inv s' (fst (rpl g (commit s x))) (rs ++ snd (rpl g (commit s x))).
  Proof.
    intros s x s' g rs I E; destruct x as [t o|t]; cbn [step] in E.
    { destruct (pcs s t) eqn:Ep; try discriminate E; injection E as <-.
      cbn [commit replay fst snd]; rewrite app_nil_r.
      apply quiet0; try rewrite Ep; try exact I; try exact Logic.I; try reflexivity.
      - apply locking_keep; [apply (iv_lock _ _ _ I)|rewrite Ep; reflexivity].
      - cbn [wf_ops]; apply ops_wf. }
    pose proof (iv_named _ _ _ I t) as Hn; pose proof (iv_wf _ _ _ I t) as Hw; pose proof (iv_T _ _ _ I t) as HT.
    unfold move in E; cbn [commit]; destruct (pcs s t) as [|[|[n v|k n v] l]|n v l|n v l|n v l|n v w [|[m f] cf] l|n v l|n v l|n v e|k n v l] eqn:Ep;
      cbn [point_named wf_ops T] in Hn, Hw, HT; try discriminate E.
    - injection E as <-; cbn [replay fst snd]; rewrite app_nil_r.
      apply quiet0; try rewrite Ep; try exact I; try exact Logic.I; try reflexivity.
      apply locking_keep; [apply (iv_lock _ _ _ I)|rewrite Ep; reflexivity].
    - destruct (dget String.eqb pts n) as [p|] eqn:En; injection E as <-; cbn [replay fst snd].
      + rewrite app_nil_r; apply quiet0; try rewrite Ep; try exact I; try exact Logic.I; try reflexivity.
        * apply locking_keep; [apply (iv_lock _ _ _ I)|rewrite Ep; reflexivity].
        * cbn; eapply point_in; exact En.
        * inversion Hw; assumption.
      + apply (moved_refused s g rs t Idle [(OSet n v, Err EKeyError)] (OSet n v) EKeyError); try rewrite Ep; try exact I; try exact Logic.I; try reflexivity; try (intros m []).
        rewrite aln_set; unfold set_point; rewrite En; reflexivity.
    - assert (wf_op (OReg k n v) /\ Forall wf_op l) as (W1 & W2) by (inversion Hw; auto).
      cbn [replay fst snd]; pose proof (Half_levels k n v) as HH; destruct (reg_check possible_level_name k n v) as [[]|e] eqn:Er; injection E as <-.
      + rewrite HH; cbn [fst snd].
        assert (nonneg v) as Nv by (eapply reg_nonneg; eassumption).
        assert (forall L, (forall m u, dget String.eqb (lv L) m = Some u -> nonneg u) -> forall m u, dget String.eqb (dset String.eqb (lv L) n v) m = Some u -> nonneg u) as NL.
        { intros L HL m u Hm; rewrite (dget_dset String.eqb String.eqb_spec) in Hm; destruct (String.eqb m n); [injection Hm as <-; exact Nv|exact (HL m u Hm)]. }
        rewrite <- (app_nil_r (hist s)); change [(t, OReg k n v, Ok tt)] with (tag t [(OReg k n v, Ok tt)]).
        apply (moved s g rs t _ _ (held s) (Half k n v l) [] [(OReg k n v, Ok tt)]); try rewrite Ep; try exact I; try exact Logic.I; try reflexivity.
        * apply locking_keep; [apply (iv_lock _ _ _ I)|rewrite Ep; reflexivity].
        * exact W2.
        * intros m; right; unfold csame, val; cbn [vals changed]; repeat split; auto.
        * intros m; unfold vsame, val; cbn; tauto.
        * intros m; unfold csame; cbn [changed]; cbn; tauto.
        * cbn [lvls lv]; rewrite (iv_lv _ _ _ I); reflexivity.
        * apply CI_lvls; [apply (iv_g _ _ _ I)|cbn [lv]; apply NL, (ci_levels _ _ _ _ _ _ _ _ _ (iv_g _ _ _ I))].
        * destruct (iv_c _ _ _ I) as (ch & H1 & H2); exists ch; split; [cbn [changed]; apply chg_keep; [rewrite Ep; reflexivity|exact H1]|].
          apply (CI_lvls _ _ _ _ _ _ _ _ _ _ H2); cbn [lv]; apply NL, (ci_levels _ _ _ _ _ _ _ _ _ H2).
      + change [(t, OReg k n v, Err e)] with (tag t [(OReg k n v, @Err unit e)]).
        apply (moved_refused s g rs t Idle [(OReg k n v, Err e)] (OReg k n v) e); try rewrite Ep; try exact I; try exact Logic.I; try reflexivity; try (intros m []).
        apply HH.
    - destruct (held s (lockof n)) eqn:Eh; [discriminate E|]; injection E as <-; cbn [replay fst snd]; rewrite app_nil_r.
      apply quiet0; try rewrite Ep; try exact I; try exact Logic.I; try reflexivity; try assumption.
      apply locking_take; [apply (iv_lock _ _ _ I)|rewrite Ep; reflexivity|exact Eh|reflexivity].
    - assert (csame (conf s) g n) as Cs by (eapply csame_mine; [exact I|rewrite Ep; reflexivity|rewrite Ep; intros []|rewrite Ep; intros []]).
      destruct (onc (conf s) n) as [[]|e] eqn:Eo; injection E as <-; cbn [replay fst snd].
      + rewrite app_nil_r; apply quiet0; try rewrite Ep; try exact I; try exact Logic.I; try reflexivity; try assumption.
        apply locking_keep; [apply (iv_lock _ _ _ I)|rewrite Ep; reflexivity].
      + rewrite <- (app_nil_r (hist s)).
        apply (moved_refused s g rs t (Fail n v e) [] (OSet n v) e); try rewrite Ep; try exact I; try exact Logic.I; try reflexivity; try assumption; try (intros m []).
        rewrite aln_set, (setp_eq g n v Hn), (onc_eq (conf s) g n Hn Cs), Eo; reflexivity.
    - cbn [replay fst snd]; rewrite aln_set.
      pose proof (setp_known g rs s t n v l I Ep) as Es.
      assert (csame (conf s) g n) as Cs by (eapply csame_mine; [exact I|rewrite Ep; reflexivity|rewrite Ep; intros []|rewrite Ep; intros []]).
      assert (vsame (conf s) g n) as Vs by (eapply vsame_mine; [exact I|rewrite Ep; reflexivity|reflexivity|rewrite Ep; intros []]).
      destruct (prv (conf s) n v) as [w|e] eqn:Ew; injection E as <-.
      + set (r := snd (setp g n v)); set (g' := fst (setp g n v)).
        rewrite <- (app_nil_r (hist s)); change [(t, OSet n v, r)] with (tag t [(OSet n v, r)]).
        apply (moved s g rs t (conf s) g' (held s) (Conf n v w (p_conflicts (pof n)) l) [] [(OSet n v, r)]); try rewrite Ep; try exact I; try exact Logic.I; try reflexivity; try assumption.
        * apply locking_keep; [apply (iv_lock _ _ _ I)|rewrite Ep; reflexivity].
        * intros m; destruct (String.eqb_spec m n) as [->|N]; [left; exists n; auto|right].
          unfold g'; rewrite Es; destruct (clash (conf s) w (p_conflicts (pof n))); cbn [fst]; unfold csame; [repeat split; auto|].
          rewrite val_set, (proj2 (String.eqb_neq _ _) N); cbn [changed In]; repeat split; auto; intros [H|H]; [congruence|exact H].
        * intros m [H|[]]; destruct (String.eqb_spec m n) as [->|N]; [right; reflexivity|left].
          unfold vsame, g'; rewrite Es; destruct (clash (conf s) w (p_conflicts (pof n))); cbn [fst]; [exact H|].
          rewrite val_set, (proj2 (String.eqb_neq _ _) N); exact H.
        * intros m [H|[[]|[]]]; destruct (String.eqb_spec m n) as [->|N]; [right; left; reflexivity|left].
          unfold csame, g'; rewrite Es; destruct (clash (conf s) w (p_conflicts (pof n))); cbn [fst]; [exact H|].
          cbn [changed In]; unfold csame in H; rewrite <- H; split; [intros [H'|H']; [congruence|exact H']|auto].
        * unfold g'; rewrite Es; destruct (clash (conf s) w (p_conflicts (pof n))); cbn [fst lvls]; apply (iv_lv _ _ _ I).
        * cbn [T]; split; [exact HT|]; split.
          { exists (lvls (conf s)); split; [|destruct (conf s); exact Ew].
            destruct (iv_c _ _ _ I) as (ch & _ & H2); exact (ci_levels _ _ _ _ _ _ _ _ _ H2). }
          split; [exists []; split; reflexivity|].
          unfold g'; rewrite Es; destruct (clash (conf s) w (p_conflicts (pof n))); cbn [fst]; [split; assumption|].
          rewrite val_set, String.eqb_refl; split; [reflexivity|left; reflexivity].
        * unfold g'; apply CI_set_point; [exact possible_level_name|apply (iv_g _ _ _ I)].
        * destruct (iv_c _ _ _ I) as (ch & H1 & H2); exists ch; split; [apply chg_keep; [rewrite Ep; reflexivity|exact H1]|exact H2].
        * cbn [pend app]; unfold r; rewrite Es; destruct (clash (conf s) w (p_conflicts (pof n))); reflexivity.
      + rewrite <- (app_nil_r (hist s)), <- aln_set.
        apply (moved_refused s g rs t (Fail n v e) [] (OSet n v) e); try rewrite Ep; try exact I; try exact Logic.I; try reflexivity; try assumption; try (intros m []).
        rewrite aln_set; exact Es.
    - (* the write *)
      injection E as <-; cbn [replay fst snd]; destruct HT as (T1 & (L & TL & T2) & (pre & T3 & T4) & T5 & T6).
      rewrite app_nil_r in T3.
      rewrite <- (app_nil_r (hist s)).
      apply (moved s g rs t _ g (held s) (Chg n v l) [] []); try rewrite Ep; try exact I; try exact Logic.I; try reflexivity; try assumption.
      + apply locking_keep; [apply (iv_lock _ _ _ I)|rewrite Ep; reflexivity].
      + intros m; destruct (String.eqb_spec m n) as [->|N]; [left; exists n; auto|right].
        rewrite val_set, (proj2 (String.eqb_neq _ _) N); unfold csame; cbn [changed]; repeat split; auto.
      + intros m H; left; unfold vsame; rewrite val_set; destruct (String.eqb_spec m n) as [->|N]; [exact T5|].
        destruct H as [H|H]; [exact H|congruence].
      + intros m [H|[H|[]]]; [left; exact H|right; right; exact H].
      + apply (iv_lv _ _ _ I).
      + apply (iv_g _ _ _ I).
      + destruct (iv_c _ _ _ I) as (ch & H1 & H2); exists (n :: ch); cbn [vals changed lvls]; split.
        * intros m; cbn [In]; rewrite H1; split.
          { intros [H|[H|(u & H)]]; [right; exists t; rewrite upd_same; exact H|left; exact H|].
            right; exists u; rewrite upd_other; [exact H|]; intros ->; rewrite Ep in H; destruct H. }
          { intros [H|(u & H)]; [auto|]; unfold upd in H; destruct (Nat.eqb u t); [left; exact H|right; right; exists u; exact H]. }
        * assert (setp (mkCfg (vals (conf s)) ch L) n v = (mkCfg (dset String.eqb (vals (conf s)) n w) (n :: ch) L, Ok tt)) as Es.
          { rewrite (setp_eq _ n v Hn).
            rewrite (onc_eq (conf s)), T1; [|exact Hn|].
            - rewrite (prv_eq (mkCfg (vals (conf s)) (changed (conf s)) L) (mkCfg (vals (conf s)) ch L) n v Hn eq_refl), T2.
              change (clash (mkCfg (vals (conf s)) ch L) w (p_conflicts (pof n))) with (clash (conf s) w (p_conflicts (pof n))).
              rewrite T3, T4; reflexivity.
            - unfold csame; cbn [changed]; rewrite H1; split; [|auto]; intros [H|(u & H)]; [exact H|exfalso].
              assert (holds (pcs s u) = Some n) as H' by (destruct (pcs s u); cbn in H |- *; try contradiction; rewrite H; reflexivity).
              assert (u = t) as -> by (eapply (lk_one _ _ (iv_lock _ _ _ I)); [exact H'|rewrite Ep; reflexivity|reflexivity]).
              rewrite Ep in H; destruct H. }
          assert (CIx (mkCfg (vals (conf s)) ch L)) as C1 by (apply (CI_lvls _ _ _ _ _ _ _ _ _ L H2); exact TL).
          pose proof (CI_set_point _ _ _ _ _ _ _ _ possible_level_name _ n v C1) as C2; rewrite Es in C2; cbn [fst] in C2.
          apply (CI_lvls _ _ _ _ _ _ _ _ _ (lvls (conf s)) C2); exact (ci_levels _ _ _ _ _ _ _ _ _ H2).
    - (* one conflict looked at *)
      destruct HT as (T1 & T2 & (pre & T3 & T4) & T5).
      assert (clash (conf s) w ((m, f) :: cf) = f w (val (conf s) m) || clash (conf s) w cf) as Ec by reflexivity.
      destruct (f w (val (conf s) m)) eqn:Ef; injection E as <-; cbn [replay fst snd].
      + rewrite <- (app_nil_r (hist s)).
        rewrite Ec in T5; cbn [orb] in T5; destruct T5 as (T5 & T6).
        apply (moved s g rs t (conf s) g (held s) (Fail n v EValueError) [] []); try rewrite Ep; try exact I; try exact Logic.I; try reflexivity; try assumption.
        * apply locking_keep; [apply (iv_lock _ _ _ I)|rewrite Ep; reflexivity].
        * intros m'; right; unfold csame; repeat split; auto.
        * intros m' [H|H]; [left; exact H|]; cbn in H; subst m'; left; exact T5.
        * intros m' [H|[H|[]]]; [left; exact H|]; cbn in H; subst m'; left; exact T6.
        * apply (iv_lv _ _ _ I).
        * apply (iv_g _ _ _ I).
        * destruct (iv_c _ _ _ I) as (ch & H1 & H2); exists ch; split; [apply chg_keep; [rewrite Ep; reflexivity|exact H1]|exact H2].
        * cbn [pend app]; rewrite Ec; reflexivity.
      + rewrite app_nil_r; apply quiet0; try rewrite Ep; try exact I; try exact Logic.I; try reflexivity; try assumption.
        * apply locking_keep; [apply (iv_lock _ _ _ I)|rewrite Ep; reflexivity].
        * rewrite Ec in T5; cbn [orb] in T5; cbn [T]; split; [exact T1|]; split; [exact T2|]; split; [|exact T5].
          exists (pre ++ [(m, f)]); split; [rewrite T3, <- app_assoc; reflexivity|].
          unfold clash in *; rewrite existsb_app, T4; cbn [existsb fst snd]; rewrite Ef; reflexivity.
        * cbn [pend]; rewrite Ec; reflexivity.
    - (* changed = True *)
      injection E as <-; cbn [replay fst snd].
      rewrite <- (app_nil_r (hist s)).
      apply (moved s g rs t _ g (held s) (Rel n v l) [] []); try rewrite Ep; try exact I; try exact Logic.I; try reflexivity; try assumption.
      + apply locking_keep; [apply (iv_lock _ _ _ I)|rewrite Ep; reflexivity].
      + intros m; destruct (String.eqb_spec m n) as [->|N]; [left; exists n; auto|right].
        unfold csame; cbn [changed In]; repeat split; auto; intros [H|H]; [congruence|exact H].
      + intros m [H|[]]; left; exact H.
      + intros m H; left; unfold csame; cbn [changed In]; destruct (String.eqb_spec m n) as [->|N]; [split; auto|].
        destruct H as [H|[[]|H]]; [unfold csame in H; rewrite H; split; [auto|intros [H'|H']; [congruence|exact H']]|cbn in H; congruence].
      + apply (iv_lv _ _ _ I).
      + apply (iv_g _ _ _ I).
      + destruct (iv_c _ _ _ I) as (ch & H1 & H2); exists ch; cbn [vals changed lvls In]; split; [|exact H2].
        intros m; rewrite H1; split.
        * intros [H|(u & H)]; [auto|]; destruct (Nat.eq_dec u t) as [->|N]; [rewrite Ep in H; left; left; exact H|].
          right; exists u; rewrite upd_other by exact N; exact H.
        * intros [[H|H]|(u & H)]; [right; exists t; rewrite Ep; exact H|auto|].
          unfold upd in H; destruct (Nat.eqb u t); [destruct H|right; exists u; exact H].
    - injection E as <-; cbn [replay fst snd]; rewrite app_nil_r; change [(t, OSet n v, Ok tt)] with (tag t [(OSet n v, Ok tt)]).
      apply moved_quiet; try rewrite Ep; try exact I; try exact Logic.I; try reflexivity; try assumption.
      apply locking_free; [apply (iv_lock _ _ _ I)|rewrite Ep; reflexivity|reflexivity].
    - injection E as <-; cbn [replay fst snd]; rewrite app_nil_r; change [(t, OSet n v, Err e)] with (tag t [(OSet n v, @Err unit e)]).
      apply moved_quiet; try rewrite Ep; try exact I; try exact Logic.I; try reflexivity; try assumption.
      apply locking_free; [apply (iv_lock _ _ _ I)|rewrite Ep; reflexivity|reflexivity].
    - injection E as <-; cbn [replay fst snd]; change [(t, OReg k n v, Ok tt)] with (tag t [(OReg k n v, Ok tt)]).
      replace (rs ++ []) with (rs ++ tag t []) by reflexivity.
      apply (moved s g rs t _ g (held s) (Todo l) [(OReg k n v, Ok tt)] []); try rewrite Ep; try exact I; try exact Logic.I; try reflexivity; try assumption.
      + apply locking_keep; [apply (iv_lock _ _ _ I)|rewrite Ep; reflexivity].
      + intros m; right; unfold csame, val; cbn [vals changed]; repeat split; auto.
      + intros m [H|[]]; left; exact H.
      + intros m [H|[[]|[]]]; left; exact H.
      + apply (iv_lv _ _ _ I).
      + apply (iv_g _ _ _ I).
      + destruct (iv_c _ _ _ I) as (ch & H1 & H2); exists ch; split; [cbn [changed]; apply chg_keep; [rewrite Ep; reflexivity|exact H1]|].
        apply (CI_lvls _ _ _ _ _ _ _ _ _ _ H2); cbn [lv]; exact (ci_levels _ _ _ _ _ _ _ _ _ H2).
  Qed.

  Hypothesis json_default : json_like is_module has_loads has_dumps loads_callable dumps_callable json_obj = true.

  Lemma Inv_start : Inv s0 c0 [].
  Proof.
    constructor; cbn [start conf held pcs hist]; try (intros; exact I); try reflexivity.
    - constructor; cbn [holds]; [intros t n H; discriminate H|intros t u n m H; discriminate H|intros k H; discriminate H].
    - intros n; left; reflexivity.
    - intros n; left; unfold csame; reflexivity.
    - apply CI_init; exact json_default.
    - exists []; split; [intros n; split; [intros []|intros [[]|(u & [])]]|apply CI_init; exact json_default].
  Qed.

  Theorem Inv_run : forall xs s, rn s0 xs = Some s -> Inv s (fst (rpl c0 (order s0 xs))) (snd (rpl c0 (order s0 xs))).
  Proof.
    assert (forall xs s g rs s', Inv s g rs -> rn s xs = Some s' -> Inv s' (fst (rpl g (order s xs))) (rs ++ snd (rpl g (order s xs)))) as G.
    { induction xs as [|x xs IH]; intros s g rs s' I E; cbn [run order] in *; [injection E as <-; cbn [replay fst snd]; rewrite app_nil_r; exact I|].
      destruct (stp s x) as [s1|] eqn:Es; [|discriminate E].
      specialize (IH s1 _ _ s' (Inv_step s x s1 g rs I Es) E); rewrite rpl_app; cbn [fst snd]; rewrite app_assoc; exact IH. }
    intros xs s E; exact (G xs s0 c0 [] s Inv_start E).
  Qed.
End Proofs.
