(** Invariants of the registry of decorated functions. *)
From Verif Require Import Base Deco_Model.
From Coq Require Import Lia.

Section Proofs.
  Context {P : Type}.
  Notation reg := (Deco_Model.reg P).

  Lemma mem_In : forall x l, mem x l = true <-> In x l.
  Proof.
    intros x l; unfold mem; rewrite existsb_exists; split.
    - intros [y [Hy E]]; apply Nat.eqb_eq in E; subst; exact Hy.
    - intros H; exists x; split; [exact H|apply Nat.eqb_refl].
  Qed.

  Lemma mem_cons : forall x y l, mem x (y :: l) = Nat.eqb x y || mem x l.
  Proof. reflexivity. Qed.

  Lemma mem_filter : forall x y l, mem x (filter (fun z => negb (Nat.eqb z y)) l) = negb (Nat.eqb x y) && mem x l.
  Proof.
    intros x y l; induction l as [|z l IH]; [cbn; now rewrite andb_false_r|].
    cbn [filter]; destruct (Nat.eqb_spec z y) as [->|N]; cbn [negb].
    - rewrite IH, mem_cons; destruct (Nat.eqb_spec x y); cbn; reflexivity.
    - rewrite !mem_cons, IH; destruct (Nat.eqb_spec x z) as [->|N2]; cbn.
      + destruct (Nat.eqb_spec z y); [contradiction|reflexivity].
      + reflexivity.
  Qed.

  Lemma get_put : forall d k v k2, get (put d k v) k2 = if Nat.eqb k2 k then Some v else get d k2.
  Proof. intros; unfold get, put; apply dget_dset; apply Nat.eqb_spec. Qed.

  Lemma get_pop_other : forall d k k2, k <> k2 -> get (pop d k) k2 = get d k2.
  Proof.
    induction d as [|[a b] d IH]; intros k k2 N; [reflexivity|].
    unfold get, pop in *; cbn [ddel dget].
    destruct (Nat.eqb_spec k a) as [->|E1].
    - destruct (Nat.eqb_spec k2 a); [congruence|reflexivity].
    - cbn [dget]; destruct (Nat.eqb k2 a); [reflexivity|apply IH; exact N].
  Qed.

  (** Well-formed registries: a wrapper is younger than its target; the registered target is the wrapped one. *)
  Record WF (g : reg) : Prop := {
    wf_log : forall i p t, nth_error (objs g) i = Some (OLog p t) -> t < i;
    wf_unlog : forall i b t, nth_error (objs g) i = Some (OUnlog b t) -> t < i;
    wf_dec : forall k v, get (dec g) k = Some v -> exists p, nth_error (objs g) k = Some (OLog p v);
    wf_unl : forall k v, get (unl g) k = Some v -> exists b, nth_error (objs g) k = Some (OUnlog b v);
    wf_nd : NoDup (dkeys (dec g)) }.

  Definition below (l : list (obj P)) : Prop :=
    (forall i p t, nth_error l i = Some (OLog p t) -> t < i) /\ (forall i b t, nth_error l i = Some (OUnlog b t) -> t < i).

  Lemma WF_below : forall g, WF g -> below (objs g).
  Proof. intros g W; split; [apply (wf_log g W)|apply (wf_unlog g W)]. Qed.

  Lemma unwrap_fuel : forall l, below l -> forall n m f, f < n -> f < m -> unwrap n l f = unwrap m l f.
  Proof.
    intros l [B1 B2]; induction n as [|n IH]; intros m f Hn Hm; [lia|].
    destruct m as [|m]; [lia|]; cbn [unwrap].
    destruct (nth_error l f) as [[|p t|b t]|] eqn:E; try reflexivity.
    - f_equal; pose proof (B1 _ _ _ E); apply IH; lia.
    - f_equal; pose proof (B2 _ _ _ E); apply IH; lia.
  Qed.

  Lemma base_fuel : forall l, below l -> forall n m f, f < n -> f < m -> base_of n l f = base_of m l f.
  Proof.
    intros l [B1 B2]; induction n as [|n IH]; intros m f Hn Hm; [lia|].
    destruct m as [|m]; [lia|]; cbn [base_of].
    destruct (nth_error l f) as [[|p t|b t]|] eqn:E; try reflexivity.
    - pose proof (B1 _ _ _ E); apply IH; lia.
    - pose proof (B2 _ _ _ E); apply IH; lia.
  Qed.

  Lemma base_app : forall l e, below l -> forall n f, f < length l -> base_of n (l ++ e) f = base_of n l f.
  Proof.
    intros l e [B1 B2]; induction n as [|n IH]; intros f Hf; [reflexivity|].
    cbn [base_of]; rewrite nth_error_app1 by exact Hf.
    destruct (nth_error l f) as [[|p t|b t]|] eqn:E; try reflexivity.
    - pose proof (B1 _ _ _ E); apply IH; lia.
    - pose proof (B2 _ _ _ E); apply IH; lia.
  Qed.

  Lemma layers_fun : forall (g : reg) f, nth_error (objs g) f = Some OFun -> layers g f = [].
  Proof. intros g f E; unfold layers; cbn [unwrap]; now rewrite E. Qed.

  Lemma layers_log : forall g f p t, WF g -> nth_error (objs g) f = Some (OLog p t) -> layers g f = LLog p :: layers g t.
  Proof.
    intros g f p t W E; unfold layers; cbn [unwrap]; rewrite E; f_equal.
    pose proof (wf_log g W _ _ _ E); rewrite (unwrap_fuel (objs g) (WF_below g W) f (S t) t) by lia; reflexivity.
  Qed.

  Lemma layers_unlog : forall g f b t, WF g -> nth_error (objs g) f = Some (OUnlog b t) -> layers g f = LUnlog b :: layers g t.
  Proof.
    intros g f b t W E; unfold layers; cbn [unwrap]; rewrite E; f_equal.
    pose proof (wf_unlog g W _ _ _ E); rewrite (unwrap_fuel (objs g) (WF_below g W) f (S t) t) by lia; reflexivity.
  Qed.

  Lemma root_fun : forall (g : reg) f, nth_error (objs g) f = Some OFun -> root g f = f.
  Proof. intros g f E; unfold root; cbn [base_of]; now rewrite E. Qed.

  Lemma root_log : forall g f p t, WF g -> nth_error (objs g) f = Some (OLog p t) -> root g f = root g t.
  Proof.
    intros g f p t W E; unfold root; cbn [base_of]; rewrite E.
    pose proof (wf_log g W _ _ _ E); rewrite (base_fuel (objs g) (WF_below g W) f (S t) t) by lia; reflexivity.
  Qed.

  Lemma root_unlog : forall g f b t, WF g -> nth_error (objs g) f = Some (OUnlog b t) -> root g f = root g t.
  Proof.
    intros g f b t W E; unfold root; cbn [base_of]; rewrite E.
    pose proof (wf_unlog g W _ _ _ E); rewrite (base_fuel (objs g) (WF_below g W) f (S t) t) by lia; reflexivity.
  Qed.

  Lemma nth_lt : forall (g : reg) i o, nth_error (objs g) i = Some o -> i < length (objs g).
  Proof. intros g i o E; apply nth_error_Some; rewrite E; discriminate. Qed.

  (** The original of an object is the object or an older one, with the same root. *)
  Lemma original_root : forall g f, WF g -> root g (get_original g f) = root g f.
  Proof.
    intros g f W; unfold get_original.
    destruct (get (dec g) f) as [o|] eqn:E.
    { destruct (wf_dec g W _ _ E) as [p Hp]; symmetry; exact (root_log g f p o W Hp). }
    destruct (get (unl g) f) as [o|] eqn:E2; [|reflexivity].
    destruct (wf_unl g W _ _ E2) as [p Hp]; symmetry; exact (root_unlog g f p o W Hp).
  Qed.

  Lemma original_le : forall g f, WF g -> get_original g f <= f.
  Proof.
    intros g f W; unfold get_original.
    destruct (get (dec g) f) as [o|] eqn:E.
    { destruct (wf_dec g W _ _ E) as [p Hp]; pose proof (wf_log g W _ _ _ Hp); lia. }
    destruct (get (unl g) f) as [o|] eqn:E2; [|lia].
    destruct (wf_unl g W _ _ E2) as [p Hp]; pose proof (wf_unlog g W _ _ _ Hp); lia.
  Qed.

  Lemma original_fun : forall g f, WF g -> nth_error (objs g) f = Some OFun -> get_original g f = f.
  Proof.
    intros g f W E; unfold get_original.
    destruct (get (dec g) f) as [o|] eqn:E1.
    { destruct (wf_dec g W _ _ E1) as [p Hp]; congruence. }
    destruct (get (unl g) f) as [o|] eqn:E2; [|reflexivity].
    destruct (wf_unl g W _ _ E2) as [p Hp]; congruence.
  Qed.

  (** What an operation on objects with root r leaves alone. *)
  Record only (r : nat) (g g' : reg) : Prop := {
    on_objs : exists e, objs g' = objs g ++ e;
    on_dec : forall k, k < length (objs g) -> root g k <> r -> get (dec g') k = get (dec g) k;
    on_unl : forall k, k < length (objs g) -> root g k <> r -> get (unl g') k = get (unl g) k;
    on_forb : forall z, z < length (objs g) -> root g z <> r -> mem z (forb g') = mem z (forb g);
    on_meth : forall z, z < length (objs g) -> root g z <> r -> mem z (meth g') = mem z (meth g) }.

  Lemma only_refl : forall r g, only r g g.
  Proof. intros r g; constructor; try reflexivity. exists []; now rewrite app_nil_r. Qed.

  Lemma only_len : forall r g g', only r g g' -> length (objs g) <= length (objs g').
  Proof. intros r g g' [[e E] _ _ _ _]; rewrite E, app_length; lia. Qed.

  Lemma only_nth : forall r g g' i o, only r g g' -> nth_error (objs g) i = Some o -> nth_error (objs g') i = Some o.
  Proof.
    intros r g g' i o [[e E] _ _ _ _] H; rewrite E, nth_error_app1; [exact H|].
    apply nth_error_Some; rewrite H; discriminate.
  Qed.

  Lemma only_root : forall r g g' k, WF g -> only r g g' -> k < length (objs g) -> root g' k = root g k.
  Proof.
    intros r g g' k W [[e E] _ _ _ _] Hk; unfold root; rewrite E.
    apply base_app; [exact (WF_below g W)|exact Hk].
  Qed.

  Lemma only_trans : forall r g1 g2 g3, WF g1 -> only r g1 g2 -> only r g2 g3 -> only r g1 g3.
  Proof.
    intros r g1 g2 g3 W A B.
    pose proof (only_len _ _ _ A) as L.
    assert (R : forall k, k < length (objs g1) -> root g1 k <> r -> root g2 k <> r)
      by (intros k Hk Hr; rewrite (only_root r g1 g2 k W A Hk); exact Hr).
    constructor.
    - destruct (on_objs _ _ _ A) as [e E]; destruct (on_objs _ _ _ B) as [e2 E2].
      exists (e ++ e2); now rewrite E2, E, app_assoc.
    - intros k Hk Hr; rewrite (on_dec _ _ _ B), (on_dec _ _ _ A); auto; lia.
    - intros k Hk Hr; rewrite (on_unl _ _ _ B), (on_unl _ _ _ A); auto; lia.
    - intros k Hk Hr; rewrite (on_forb _ _ _ B), (on_forb _ _ _ A); auto; lia.
    - intros k Hk Hr; rewrite (on_meth _ _ _ B), (on_meth _ _ _ A); auto; lia.
  Qed.

  (** The primitives keep well-formedness and act on one root only. *)
  Lemma new_fun_ok : forall g r, WF g -> WF (fst (new g OFun)) /\ only r g (fst (new g OFun)).
  Proof.
    intros g r W; split.
    - constructor; cbn [new fst objs dec unl].
      + intros i p t H; destruct (Nat.lt_ge_cases i (length (objs g))) as [L|L].
        * rewrite nth_error_app1 in H by exact L; exact (wf_log g W _ _ _ H).
        * rewrite nth_error_app2 in H by exact L.
          destruct (i - length (objs g)) as [|[|]]; discriminate.
      + intros i p t H; destruct (Nat.lt_ge_cases i (length (objs g))) as [L|L].
        * rewrite nth_error_app1 in H by exact L; exact (wf_unlog g W _ _ _ H).
        * rewrite nth_error_app2 in H by exact L.
          destruct (i - length (objs g)) as [|[|]]; discriminate.
      + intros k v H; destruct (wf_dec g W _ _ H) as [p Hp]; exists p.
        rewrite nth_error_app1; [exact Hp|exact (nth_lt _ _ _ Hp)].
      + intros k v H; destruct (wf_unl g W _ _ H) as [p Hp]; exists p.
        rewrite nth_error_app1; [exact Hp|exact (nth_lt _ _ _ Hp)].
      + exact (wf_nd g W).
    - constructor; try reflexivity; cbn [new fst objs]; eauto.
  Qed.

  Lemma new_wrap_ok : forall g r t o, WF g -> t < length (objs g) -> (exists p, o = OLog p t) \/ (exists b, o = OUnlog b t) ->
    WF (fst (new g o)) /\ only r g (fst (new g o)).
  Proof.
    intros g r t o W Ht Ho; split.
    - constructor; cbn [new fst objs dec unl].
      + intros i p t' H; destruct (Nat.lt_ge_cases i (length (objs g))) as [L|L].
        * rewrite nth_error_app1 in H by exact L; exact (wf_log g W _ _ _ H).
        * rewrite nth_error_app2 in H by exact L.
          destruct (i - length (objs g)) as [|[|]]; cbn in H; try discriminate.
          injection H as H; destruct Ho as [[p' E]|[b E]]; rewrite E in H; [injection H as H1 H2; lia|discriminate].
      + intros i p t' H; destruct (Nat.lt_ge_cases i (length (objs g))) as [L|L].
        * rewrite nth_error_app1 in H by exact L; exact (wf_unlog g W _ _ _ H).
        * rewrite nth_error_app2 in H by exact L.
          destruct (i - length (objs g)) as [|[|]]; cbn in H; try discriminate.
          injection H as H; destruct Ho as [[p' E]|[b E]]; rewrite E in H; [discriminate|injection H as H1 H2; lia].
      + intros k v H; destruct (wf_dec g W _ _ H) as [p Hp]; exists p.
        rewrite nth_error_app1; [exact Hp|exact (nth_lt _ _ _ Hp)].
      + intros k v H; destruct (wf_unl g W _ _ H) as [p Hp]; exists p.
        rewrite nth_error_app1; [exact Hp|exact (nth_lt _ _ _ Hp)].
      + exact (wf_nd g W).
    - constructor; try reflexivity; cbn [new fst objs]; eauto.
  Qed.

  Lemma new_nth : forall (g : reg) o, nth_error (objs (fst (new g o))) (snd (new g o)) = Some o.
  Proof. intros g o; cbn [new fst snd objs]; rewrite nth_error_app2 by lia; rewrite Nat.sub_diag; reflexivity. Qed.

  Lemma add_ok : forall g w o m p, WF g -> nth_error (objs g) w = Some (OLog p o) ->
    WF (add g w o m) /\ only (root g w) g (add g w o m).
  Proof.
    intros g w o m p W Hw; split.
    - constructor; cbn [add objs dec unl]; try apply W.
      + intros k v H; rewrite get_put in H; destruct (Nat.eqb_spec k w) as [->|N].
        * injection H as <-; eauto.
        * exact (wf_dec g W _ _ H).
      + eapply NoDup_dset; try apply Nat.eqb_spec; apply W.
    - constructor; cbn [add objs dec unl forb meth]; try reflexivity.
      + exists []; now rewrite app_nil_r.
      + intros k Hk Hr; rewrite get_put; destruct (Nat.eqb_spec k w) as [->|N]; [contradiction|reflexivity].
      + intros z Hz Hr; destruct m; [|reflexivity]; rewrite mem_cons.
        destruct (Nat.eqb_spec z o) as [->|N]; [|reflexivity].
        exfalso; apply Hr; symmetry; exact (root_log g w p o W Hw).
  Qed.

  Lemma add_unlogged_ok : forall g w o b, WF g -> nth_error (objs g) w = Some (OUnlog b o) ->
    WF (add_unlogged g w o) /\ only (root g w) g (add_unlogged g w o).
  Proof.
    intros g w o m W Hw; split.
    - constructor; cbn [add_unlogged objs dec unl]; try apply W.
      intros k v H; rewrite get_put in H; destruct (Nat.eqb_spec k w) as [->|N].
      + injection H as <-; eauto.
      + exact (wf_unl g W _ _ H).
    - constructor; cbn [add_unlogged objs dec unl forb meth]; try reflexivity.
      + exists []; now rewrite app_nil_r.
      + intros k Hk Hr; rewrite get_put; destruct (Nat.eqb_spec k w) as [->|N]; [contradiction|reflexivity].
  Qed.

  Lemma get_pop_same : forall d k, NoDup (dkeys d) -> get (pop d k) k = None.
  Proof. intros d k H; unfold get, pop; apply dget_ddel_same; [apply Nat.eqb_spec|exact H]. Qed.

  Lemma remove_ok : forall g f, WF g -> WF (remove g f) /\ only (root g f) g (remove g f).
  Proof.
    intros g f W; unfold remove; destruct (is_decorator g f); [|split; [exact W|apply only_refl]]; split.
    - constructor; cbn [objs dec unl]; try apply W.
      + intros k v H; destruct (Nat.eq_dec f k) as [->|N].
        * rewrite get_pop_same in H by apply W; discriminate.
        * rewrite get_pop_other in H by exact N; exact (wf_dec g W _ _ H).
      + eapply NoDup_ddel; try apply Nat.eqb_spec; apply W.
    - constructor; cbn [objs dec unl forb meth]; try reflexivity.
      + exists []; now rewrite app_nil_r.
      + intros k Hk Hr; apply get_pop_other; intros ->; contradiction.
      + intros z Hz Hr; rewrite mem_filter; destruct (Nat.eqb_spec z (get_original g f)) as [->|N]; [|reflexivity].
        exfalso; apply Hr; exact (original_root g f W).
  Qed.

  Lemma forbid_ok : forall g f, WF g -> WF (forbid g f) /\ only (root g f) g (forbid g f).
  Proof.
    intros g f W; unfold forbid; destruct (is_forbidden g (get_original g f)); [split; [exact W|apply only_refl]|]; split.
    - constructor; cbn [objs dec unl]; apply W.
    - constructor; cbn [objs dec unl forb meth]; try reflexivity.
      + exists []; now rewrite app_nil_r.
      + intros z Hz Hr; rewrite mem_cons; destruct (Nat.eqb_spec z (get_original g f)) as [->|N]; [|reflexivity].
        exfalso; apply Hr; exact (original_root g f W).
  Qed.

  Lemma remove_objs : forall (g : reg) f, objs (remove g f) = objs g.
  Proof. intros g f; unfold remove; destruct (is_decorator g f); reflexivity. Qed.
  Lemma forbid_objs : forall (g : reg) f, objs (forbid g f) = objs g.
  Proof. intros g f; unfold forbid; destruct (is_forbidden g _); reflexivity. Qed.
  Lemma root_objs : forall (g g' : reg) f, objs g' = objs g -> root g' f = root g f.
  Proof. intros g g' f E; unfold root; now rewrite E. Qed.

  (** unlog: the new object wraps the original; nothing of another root changes. *)
  Lemma unlog_ok : forall g f b, WF g -> f < length (objs g) ->
    let '(g', r) := unlog g f b in
    WF g' /\ only (root g f) g g' /\ nth_error (objs g') r = Some (OUnlog b (get_original g f)) /\
    get (unl g') r = Some (get_original g f) /\
    (nth_error (objs g) (get_original g f) = Some OFun -> mem (get_original g f) (forb g') = true).
  Proof.
    intros g f b W Hf.
    set (o := get_original g f).
    set (g1 := if is_decorator g f then forbid (remove g f) o else forbid g f).
    assert (Ho : is_decorator g f = false -> f = o).
    { unfold is_decorator, o; destruct (Nat.eqb_spec f (get_original g f)); cbn [negb]; auto; discriminate. }
    assert (Eq : unlog g f b = (add_unlogged (fst (new g1 (OUnlog b o))) (length (objs g1)) o, length (objs g1))).
    { unfold unlog, g1; fold o; destruct (is_decorator g f) eqn:E; [reflexivity|].
      rewrite <- (Ho eq_refl); reflexivity. }
    assert (Ro : root g o = root g f) by (apply original_root; exact W).
    assert (Lo : o < length (objs g)) by (pose proof (original_le g f W); unfold o; lia).
    assert (H1 : WF g1 /\ only (root g f) g g1 /\ objs g1 = objs g).
    { unfold g1; destruct (is_decorator g f).
      - destruct (remove_ok g f W) as [W1 O1]; destruct (forbid_ok (remove g f) o W1) as [W2 O2].
        split; [exact W2|split; [|now rewrite forbid_objs, remove_objs]].
        apply (only_trans _ g (remove g f)); [exact W|exact O1|].
        rewrite (root_objs g (remove g f)) in O2 by apply remove_objs; rewrite Ro in O2; exact O2.
      - destruct (forbid_ok g f W) as [W1 O1]; split; [exact W1|split; [exact O1|apply forbid_objs]]. }
    destruct H1 as [W1 [O1 E1]].
    assert (F1 : nth_error (objs g) o = Some OFun -> mem o (forb g1) = true).
    { assert (G1 : forall h : reg, WF h -> nth_error (objs h) o = Some OFun -> mem o (forb (forbid h o)) = true).
      { intros h Wh Eo; unfold forbid; rewrite (original_fun h o Wh Eo).
        unfold is_forbidden; rewrite (original_fun h o Wh Eo).
        destruct (mem o (forb h)) eqn:E2; [exact E2|]; cbn [forb]; rewrite mem_cons, Nat.eqb_refl; reflexivity. }
      intros Eo; unfold g1; destruct (is_decorator g f) eqn:E.
      - apply G1; [apply remove_ok; exact W|rewrite remove_objs; exact Eo].
      - rewrite (Ho eq_refl); apply G1; [exact W|exact Eo]. }
    assert (Lo1 : o < length (objs g1)) by (rewrite E1; exact Lo).
    destruct (new_wrap_ok g1 (root g f) o (OUnlog b o) W1 Lo1 (or_intror (ex_intro _ b eq_refl))) as [W2 O2].
    pose proof (new_nth g1 (OUnlog b o)) as N2; cbn [new snd] in N2.
    set (g2 := fst (new g1 (OUnlog b o))) in *.
    assert (N2' : nth_error (objs g2) (length (objs g1)) = Some (OUnlog b o)) by exact N2.
    destruct (add_unlogged_ok g2 (length (objs g1)) o b W2 N2') as [W3 O3].
    assert (R3 : root g2 (length (objs g1)) = root g f).
    { rewrite (root_unlog g2 _ b o W2 N2').
      rewrite (only_root (root g f) g1 g2 o W1 O2 Lo1).
      rewrite (root_objs g g1 o E1); exact Ro. }
    rewrite R3 in O3.
    rewrite Eq; split; [exact W3|split; [|split; [exact N2'|split]]].
    - apply (only_trans _ g g1); [exact W|exact O1|]; apply (only_trans _ g1 g2); [exact W1|exact O2|exact O3].
    - cbn [add_unlogged unl]; rewrite get_put, Nat.eqb_refl; reflexivity.
    - intros Eo; cbn [add_unlogged forb]; exact (F1 Eo).
  Qed.

  Lemma get_original_new : forall (g : reg) o f, get_original (fst (new g o)) f = get_original g f.
  Proof. reflexivity. Qed.

  (** log: nothing of another root changes. *)
  Lemma log_ok : forall g f p m, WF g -> f < length (objs g) ->
    let '(g', r) := log g f p m in
    WF g' /\ only (root g f) g g' /\ r < length (objs g') /\ root g' r = root g f.
  Proof.
    intros g f p m W Hf; unfold log.
    set (o := get_original g f).
    assert (Ro : root g o = root g f) by (apply original_root; exact W).
    assert (Lo : o < length (objs g)) by (pose proof (original_le g f W); unfold o; lia).
    destruct (new_wrap_ok g (root g f) o (OLog p o) W Lo (or_introl (ex_intro _ p eq_refl))) as [W1 O1].
    pose proof (new_nth g (OLog p o)) as N1; cbn [new snd] in N1.
    cbn [new]; fold (fst (new g (OLog p o))).
    change (mkReg (objs g ++ [OLog p o]) (dec g) (unl g) (forb g) (meth g)) with (fst (new g (OLog p o))).
    set (g1 := fst (new g (OLog p o))) in *; set (w := length (objs g)) in *.
    assert (L1 : length (objs g1) = S w) by (unfold g1, w; cbn [new fst objs]; rewrite app_length; cbn; lia).
    assert (Rw : root g1 w = root g f).
    { rewrite (root_log g1 w p o W1 N1); rewrite (only_root (root g f) g g1 o W O1 Lo); exact Ro. }
    assert (Rf : root g1 f = root g f) by (apply (only_root (root g f) g g1 f W O1 Hf)).
    assert (Ro1 : root g1 o = root g f) by (rewrite (only_root (root g f) g g1 o W O1 Lo); exact Ro).
    assert (Add : forall x, root g1 x = root g f -> WF (add (remove g1 x) w o m) /\ only (root g f) g (add (remove g1 x) w o m)
        /\ w < length (objs (add (remove g1 x) w o m)) /\ root (add (remove g1 x) w o m) w = root g f).
    { intros x Hx; destruct (remove_ok g1 x W1) as [W2 O2]; rewrite Hx in O2.
      assert (N2 : nth_error (objs (remove g1 x)) w = Some (OLog p o)) by (rewrite remove_objs; exact N1).
      destruct (add_ok (remove g1 x) w o m p W2 N2) as [W3 O3].
      rewrite (root_objs g1 (remove g1 x) w) in O3 by apply remove_objs; rewrite Rw in O3.
      split; [exact W3|split; [|split]].
      - apply (only_trans _ g g1); [exact W|exact O1|]; apply (only_trans _ g1 (remove g1 x)); assumption.
      - cbn [add objs]; rewrite remove_objs; lia.
      - rewrite (root_objs g1); [exact Rw|cbn [add objs]; apply remove_objs]. }
    unfold choose.
    destruct (is_forbidden g1 o).
    { pose proof (unlog_ok g1 o None W1 ltac:(lia)) as U; destruct (unlog g1 o None) as [g' r].
      destruct U as [W2 [O2 [N2 _]]]; rewrite Ro1 in O2.
      split; [exact W2|split; [apply (only_trans _ g g1); assumption|split; [exact (nth_lt _ _ _ N2)|]]].
      rewrite (root_unlog g' r None _ W2 N2).
      pose proof (original_le g1 o W1).
      rewrite (only_root (root g f) g1 g' _ W1 O2) by lia.
      rewrite original_root by exact W1; exact Ro1. }
    destruct (is_decorator g1 f).
    - destruct (is_method g1 f); [apply Add; exact Rf|].
      destruct m; [|apply Add; exact Rf].
      split; [exact W1|split; [exact O1|split; [lia|exact Rf]]].
    - apply Add; exact Ro1.
  Qed.

  Lemma apply_ok : forall g f d, WF g -> f < length (objs g) ->
    let '(g', r) := apply g f d in
    WF g' /\ only (root g f) g g' /\ r < length (objs g') /\ root g' r = root g f.
  Proof.
    intros g f d W Hf; destruct d as [p|p|b|]; cbn [apply].
    - apply log_ok; assumption.
    - apply log_ok; assumption.
    - pose proof (unlog_ok g f b W Hf) as U; destruct (unlog g f b) as [g' r].
      destruct U as [W2 [O2 [N2 _]]]; split; [exact W2|split; [exact O2|split; [exact (nth_lt _ _ _ N2)|]]].
      rewrite (root_unlog g' r b _ W2 N2).
      pose proof (original_le g f W).
      rewrite (only_root (root g f) g g' _ W O2) by lia; apply original_root; exact W.
    - split; [exact W|split; [apply only_refl|split]].
      + pose proof (original_le g f W); lia.
      + apply original_root; exact W.
  Qed.

  Lemma WF_empty : WF empty.
  Proof.
    constructor; cbn; try discriminate; try constructor.
    all: intros i ? ? H; destruct i; discriminate.
  Qed.

  Lemma step_WF : forall g o, WF g -> WF (step g o).
  Proof.
    intros g [|f d] W; cbn [step]; [apply (new_fun_ok g 0 W)|].
    destruct (Nat.ltb_spec f (length (objs g))) as [L|L]; [|exact W].
    pose proof (apply_ok g f d W L) as A; destruct (apply g f d) as [g' r]; apply A.
  Qed.

  Lemma run_WF : forall os g, WF g -> WF (run os g).
  Proof. induction os as [|o os IH]; intros g W; [exact W|]; apply (IH (step g o)); apply step_WF; exact W. Qed.
End Proofs.

From Verif Require Import Deco_Spec.

Section Chains.
  Context {P : Type}.
  Notation reg := (Deco_Model.reg P).

  (** The current version of f: forbidden?, decorated through a class?, layers. *)
  Record Inv (f : nat) (g : reg) (cur : nat) (fb mt : bool) (ls : list (layer P)) : Prop := {
    iv_wf : WF g;
    iv_fun : nth_error (objs g) f = Some OFun;
    iv_fb : mem f (forb g) = fb;
    iv_mt : mem f (meth g) = mt;
    iv_cur : match ls with
             | [] => cur = f
             | [LLog p] => fb = false /\ nth_error (objs g) cur = Some (OLog p f) /\ get (dec g) cur = Some f
             | [LUnlog b] => fb = true /\ nth_error (objs g) cur = Some (OUnlog b f) /\ get (unl g) cur = Some f
             | _ => False
             end }.

  Lemma Inv_layers : forall f g cur fb mt ls, Inv f g cur fb mt ls -> layers g cur = ls.
  Proof.
    intros f g cur fb mt ls [W F B M C].
    destruct ls as [|[p|b] [|]]; try contradiction.
    - subst; apply layers_fun; exact F.
    - destruct C as [_ [N _]]; rewrite (layers_log g cur p f W N); f_equal; apply layers_fun; exact F.
    - destruct C as [_ [N _]]; rewrite (layers_unlog g cur b f W N); f_equal; apply layers_fun; exact F.
  Qed.

  Lemma Inv_original : forall f g cur fb mt ls, Inv f g cur fb mt ls -> get_original g cur = f.
  Proof.
    intros f g cur fb mt ls [W F B M C].
    destruct ls as [|[p|b] [|]]; try contradiction.
    - subst; apply original_fun; assumption.
    - destruct C as [_ [N D]]; unfold get_original; now rewrite D.
    - destruct C as [_ [N D]]; unfold get_original; rewrite D.
      destruct (get (dec g) cur) as [o|] eqn:E; [|reflexivity].
      destruct (wf_dec g W _ _ E) as [q Hq]; congruence.
  Qed.

  Lemma Inv_cur : forall f g cur fb mt ls, Inv f g cur fb mt ls -> cur < length (objs g) /\ is_decorator g cur = (match ls with [] => false | _ => true end).
  Proof.
    intros f g cur fb mt ls I; pose proof (Inv_original _ _ _ _ _ _ I) as O.
    destruct I as [W F B M C]; unfold is_decorator; rewrite O.
    destruct ls as [|[p|b] [|]]; try contradiction.
    - subst; rewrite Nat.eqb_refl; split; [exact (nth_lt _ _ _ F)|reflexivity].
    - destruct C as [_ [N D]]; split; [exact (nth_lt _ _ _ N)|].
      destruct (Nat.eqb_spec cur f) as [->|]; [congruence|reflexivity].
    - destruct C as [_ [N D]]; split; [exact (nth_lt _ _ _ N)|].
      destruct (Nat.eqb_spec cur f) as [->|]; [congruence|reflexivity].
  Qed.

  Lemma Inv_root : forall f g cur fb mt ls, Inv f g cur fb mt ls -> root g cur = f.
  Proof.
    intros f g cur fb mt ls I; pose proof (Inv_original _ _ _ _ _ _ I) as O.
    destruct I as [W F B M C]; rewrite <- (original_root g cur W), O; apply root_fun; exact F.
  Qed.

  Lemma Inv_other : forall f g g' cur fb mt ls r, Inv f g cur fb mt ls -> WF g' -> only r g g' -> r <> f -> Inv f g' cur fb mt ls.
  Proof.
    intros f g g' cur fb mt ls r I W' O N.
    pose proof (Inv_cur _ _ _ _ _ _ I) as [L _]; pose proof (Inv_root _ _ _ _ _ _ I) as R.
    destruct I as [W F B M C].
    assert (Rf : root g f = f) by (apply root_fun; exact F).
    pose proof (nth_lt _ _ _ F) as Lf.
    constructor.
    - exact W'.
    - exact (only_nth _ _ _ _ _ O F).
    - rewrite (on_forb _ _ _ O f Lf) by congruence; exact B.
    - rewrite (on_meth _ _ _ O f Lf) by congruence; exact M.
    - destruct ls as [|[p|b] [|]]; try contradiction; [exact C| |].
      + destruct C as [Z [C1 C2]]; split; [exact Z|split; [exact (only_nth _ _ _ _ _ O C1)|]].
        rewrite (on_dec _ _ _ O cur L) by congruence; exact C2.
      + destruct C as [Z [C1 C2]]; split; [exact Z|split; [exact (only_nth _ _ _ _ _ O C1)|]].
        rewrite (on_unl _ _ _ O cur L) by congruence; exact C2.
  Qed.

  Lemma Inv_step_other : forall f g cur fb mt ls o, Inv f g cur fb mt ls ->
    match o with Def => True | On x _ => root g x <> f end -> Inv f (step g o) cur fb mt ls.
  Proof.
    intros f g cur fb mt ls [|x d] I H; cbn [step].
    - destruct (new_fun_ok g (S f) (iv_wf _ _ _ _ _ _ I)) as [W O]; exact (Inv_other f g _ cur fb mt ls (S f) I W O ltac:(lia)).
    - destruct (Nat.ltb_spec x (length (objs g))) as [L|L]; [|exact I].
      pose proof (apply_ok g x d (iv_wf _ _ _ _ _ _ I) L) as A; destruct (apply g x d) as [g' r]; destruct A as [W [O _]].
      exact (Inv_other f g g' cur fb mt ls (root g x) I W O H).
  Qed.

  (** One decoration. *)
  Definition nextv (fb mt : bool) (ls : list (layer P)) (d : deco P) : bool * bool * list (layer P) :=
    match d with
    | DUnlog b => (true, mt, [LUnlog b])
    | DOrig => (fb, mt, [])
    | DLog p => if fb then (true, mt, [LUnlog None]) else (false, match ls with [] => mt | _ => false end, [LLog p])
    | DMeth p => if fb then (true, mt, [LUnlog None])
                 else match ls with
                      | [] => (false, true, [LLog p])
                      | _ => if mt then (false, true, [LLog p]) else (false, false, ls)
                      end
    end.

  Lemma unlog_inv : forall f g cur fb mt ls b, Inv f g cur fb mt ls ->
    let '(g', c') := unlog g cur b in exists mt', Inv f g' c' true mt' [LUnlog b].
  Proof.
    intros f g cur fb mt ls b I.
    pose proof (Inv_cur _ _ _ _ _ _ I) as [L _]; pose proof (Inv_original _ _ _ _ _ _ I) as O.
    pose proof (unlog_ok g cur b (iv_wf _ _ _ _ _ _ I) L) as U; destruct (unlog g cur b) as [g' c'].
    rewrite O in U; destruct U as [W [On [N [D Fb]]]].
    exists (mem f (meth g')); constructor; auto.
    - exact (only_nth _ _ _ _ _ On (iv_fun _ _ _ _ _ _ I)).
    - exact (Fb (iv_fun _ _ _ _ _ _ I)).
  Qed.

  Lemma log_inv : forall f g cur fb mt ls p m, Inv f g cur fb mt ls ->
    let '(g', c') := log g cur p m in
    exists mt', let '(fb2, mt2, ls2) := nextv fb mt ls (if m then DMeth p else DLog p) in
      (fb2 = false -> mt' = mt2) /\ Inv f g' c' fb2 mt' ls2.
  Proof.
    intros f g cur fb mt ls p m I.
    pose proof (Inv_cur _ _ _ _ _ _ I) as [L Dc]; pose proof (Inv_original _ _ _ _ _ _ I) as O.
    unfold log; rewrite O; cbn [new].
    change (mkReg (objs g ++ [OLog p f]) (dec g) (unl g) (forb g) (meth g)) with (fst (new g (OLog p f))).
    set (g1 := fst (new g (OLog p f))); set (w := length (objs g)).
    pose proof (nth_lt _ _ _ (iv_fun _ _ _ _ _ _ I)) as Lf.
    destruct (new_wrap_ok g (S f) f (OLog p f) (iv_wf _ _ _ _ _ _ I) Lf (or_introl (ex_intro _ p eq_refl))) as [W1 O1].
    fold g1 in W1, O1.
    assert (I1 : Inv f g1 cur fb mt ls) by (exact (Inv_other f g g1 cur fb mt ls (S f) I W1 O1 ltac:(lia))).
    assert (N1 : nth_error (objs g1) w = Some (OLog p f)) by (exact (new_nth g (OLog p f))).
    assert (Of : get_original g1 f = f) by (apply original_fun; [exact W1|exact (iv_fun _ _ _ _ _ _ I1)]).
    assert (Oc : get_original g1 cur = f) by exact O.
    assert (Dc1 : is_decorator g1 cur = match ls with [] => false | _ => true end) by exact Dc.
    assert (Fb1 : is_forbidden g1 f = fb) by (unfold is_forbidden; rewrite Of; exact (iv_fb _ _ _ _ _ _ I1)).
    assert (Mt1 : is_method g1 cur = mt) by (unfold is_method; rewrite Oc; exact (iv_mt _ _ _ _ _ _ I1)).
    unfold choose; rewrite Fb1, Dc1, Mt1.
    destruct fb.
    { assert (If : Inv f g1 f true mt []).
      { destruct I1 as [A1 A2 A3 A4 A5]; constructor; auto. }
      pose proof (unlog_inv f g1 f true mt [] None If) as U; destruct (unlog g1 f None) as [g' c'].
      destruct U as [mt' U]; exists mt'; destruct m; cbn [nextv]; split; auto; discriminate. }
    (* the wrapper is registered after remove of x *)
    assert (Reg : forall x mt0, get_original g1 x = f -> mt0 = (if m then true else if is_decorator g1 x then false else mt) ->
      Inv f (add (remove g1 x) w f m) w false mt0 [LLog p]).
    { intros x mt0 Hx Emt; destruct (remove_ok g1 x W1) as [W2 O2].
      assert (N2 : nth_error (objs (remove g1 x)) w = Some (OLog p f)) by (rewrite remove_objs; exact N1).
      destruct (add_ok (remove g1 x) w f m p W2 N2) as [W3 O3].
      constructor.
      - exact W3.
      - cbn [add objs]; rewrite remove_objs; exact (iv_fun _ _ _ _ _ _ I1).
      - cbn [add forb]; unfold remove; destruct (is_decorator g1 x); exact (iv_fb _ _ _ _ _ _ I1).
      - subst mt0; cbn [add meth]; unfold remove; destruct m.
        + rewrite mem_cons, Nat.eqb_refl; reflexivity.
        + destruct (is_decorator g1 x); cbn [meth].
          * rewrite mem_filter, Hx, Nat.eqb_refl; reflexivity.
          * exact (iv_mt _ _ _ _ _ _ I1).
      - split; [reflexivity|split].
        + cbn [add objs]; exact N2.
        + cbn [add dec]; rewrite get_put, Nat.eqb_refl; reflexivity. }
    assert (Df : is_decorator g1 f = false) by (unfold is_decorator; rewrite Of, Nat.eqb_refl; reflexivity).
    destruct ls as [|l0 ls0].
    { exists (if m then true else mt); destruct m; cbn [nextv]; split; auto; apply Reg; auto; rewrite Df; reflexivity. }
    destruct mt.
    { exists m; destruct m; cbn [nextv]; split; auto; apply Reg; auto; rewrite Dc1; reflexivity. }
    destruct m.
    { exists false; cbn [nextv]; split; auto. }
    exists false; cbn [nextv]; split; auto; apply Reg; auto; rewrite Dc1; reflexivity.
  Qed.

  Lemma apply_inv : forall f g cur fb mt ls d, Inv f g cur fb mt ls ->
    let '(g', c') := apply g cur d in
    exists mt', let '(fb2, mt2, ls2) := nextv fb mt ls d in
      (fb2 = false -> mt' = mt2) /\ Inv f g' c' fb2 mt' ls2.
  Proof.
    intros f g cur fb mt ls d I; destruct d as [p|p|b|]; cbn [apply].
    - exact (log_inv f g cur fb mt ls p false I).
    - exact (log_inv f g cur fb mt ls p true I).
    - pose proof (unlog_inv f g cur fb mt ls b I) as U; destruct (unlog g cur b) as [g' c'].
      destruct U as [mt' U]; exists mt'; cbn [nextv]; split; [discriminate|exact U].
    - exists mt; cbn [nextv]; split; [reflexivity|].
      rewrite (Inv_original _ _ _ _ _ _ I); destruct I as [A1 A2 A3 A4 A5]; constructor; auto.
  Qed.

  (** The decorations of a chain, one after the other. *)
  Fixpoint nexts (v : bool * bool * list (layer P)) (ds : list (deco P)) : bool * bool * list (layer P) :=
    match ds with
    | [] => v
    | d :: r => let '(fb, mt, ls) := v in nexts (nextv fb mt ls d) r
    end.

  Lemma nexts_app : forall a b v, nexts v (a ++ b) = nexts (nexts v a) b.
  Proof. induction a as [|d a IH]; intros b [[fb mt] ls]; [reflexivity|]; cbn [app nexts]; apply IH. Qed.

  (** After unlog, the class flag no longer matters. *)
  Lemma nexts_forb : forall ds mt mt' ls, fst (fst (nexts (true, mt, ls) ds)) = true /\
    fst (fst (nexts (true, mt', ls) ds)) = true /\ snd (nexts (true, mt, ls) ds) = snd (nexts (true, mt', ls) ds).
  Proof.
    induction ds as [|d ds IH]; intros mt mt' ls; [auto|].
    cbn [nexts]; destruct d; cbn [nextv]; apply IH.
  Qed.

  Lemma chain_inv : forall l f g cur fb mt ls, Inv f g cur fb mt ls -> apart f g cur l ->
    let '(g', c') := chain g cur l in
    exists mt', let '(fb2, mt2, ls2) := nexts (fb, mt, ls) (mine l) in
      (fb2 = false -> mt' = mt2) /\ Inv f g' c' fb2 mt' ls2.
  Proof.
    induction l as [|[d|o] l IH]; intros f g cur fb mt ls I A; cbn [chain mine apart] in *.
    - exists mt; cbn [nexts]; split; [reflexivity|exact I].
    - pose proof (apply_inv f g cur fb mt ls d I) as S; destruct (apply g cur d) as [g' c'].
      destruct S as [mt' S]; cbn [nexts]; destruct (nextv fb mt ls d) as [[fb2 mt2] ls2]; destruct S as [S1 S2].
      pose proof (IH f g' c' fb2 mt' ls2 S2 A) as H; destruct (chain g' c' l) as [g'' c''].
      destruct fb2; [|rewrite <- (S1 eq_refl); exact H].
      destruct H as [m2 H]; exists m2.
      destruct (nexts_forb (mine l) mt' mt2 ls2) as [Q1 [Q2 Q3]].
      destruct (nexts (true, mt', ls2) (mine l)) as [[fa ma] la].
      destruct (nexts (true, mt2, ls2) (mine l)) as [[fb' mb] lb].
      cbn in Q1, Q2, Q3; subst; destruct H as [H1 H2]; split; [discriminate|exact H2].
    - destruct A as [A1 A2]; apply (IH f (step g o) cur fb mt ls); [apply Inv_step_other; assumption|exact A2].
  Qed.

  Lemma Inv_def : forall g, WF g -> mem (length (objs g)) (forb g) = false -> mem (length (objs g)) (meth g) = false ->
    Inv (length (objs g)) (step g Def) (length (objs g)) false false [].
  Proof.
    intros g W H1 H2; constructor.
    - apply (step_WF g Def W).
    - exact (new_nth g OFun).
    - exact H1.
    - exact H2.
    - reflexivity.
  Qed.
End Chains.

Section Bounds.
  Context {P : Type}.
  Notation reg := (Deco_Model.reg P).

  (** Only existing objects are forbidden or marked as methods. *)
  Definition Bnd (g : reg) : Prop :=
    (forall z, mem z (forb g) = true -> z < length (objs g)) /\ (forall z, mem z (meth g) = true -> z < length (objs g)).

  Lemma Bnd_new : forall g o, Bnd g -> Bnd (fst (new g o)).
  Proof.
    intros g o [A B]; split; cbn [new fst objs forb meth]; intros z H; rewrite app_length.
    - specialize (A z H); lia.
    - specialize (B z H); lia.
  Qed.

  Lemma Bnd_remove : forall g f, Bnd g -> Bnd (remove g f).
  Proof.
    intros g f [A B]; unfold remove; destruct (is_decorator g f); split; cbn [objs forb meth]; auto.
    intros z H; rewrite mem_filter in H; apply andb_true_iff in H; apply B; tauto.
  Qed.

  Lemma Bnd_forbid : forall g f, WF g -> f < length (objs g) -> Bnd g -> Bnd (forbid g f).
  Proof.
    intros g f W L [A B]; unfold forbid; destruct (is_forbidden g (get_original g f)); split; cbn [objs forb meth]; auto.
    intros z H; rewrite mem_cons in H; apply orb_true_iff in H; destruct H as [H|H]; [|auto].
    apply Nat.eqb_eq in H; subst; pose proof (original_le g f W); lia.
  Qed.

  Lemma Bnd_add : forall g w o m, o < length (objs g) -> Bnd g -> Bnd (add g w o m).
  Proof.
    intros g w o m L [A B]; split; cbn [add objs forb meth]; auto.
    intros z H; destruct m; [|auto]; rewrite mem_cons in H; apply orb_true_iff in H; destruct H as [H|H]; [|auto].
    apply Nat.eqb_eq in H; subst; exact L.
  Qed.

  Lemma Bnd_unlog : forall g f b, WF g -> f < length (objs g) -> Bnd g -> Bnd (fst (unlog g f b)).
  Proof.
    intros g f b W L B; unfold unlog.
    destruct (is_decorator g f) eqn:E; cbn [fst].
    - assert (Bo : Bnd (forbid (remove g f) (get_original g f))).
      { apply Bnd_forbid; [apply remove_ok; exact W| |apply Bnd_remove; exact B].
        rewrite remove_objs; pose proof (original_le g f W); lia. }
      exact (Bnd_new _ (OUnlog b (get_original g f)) Bo).
    - exact (Bnd_new _ (OUnlog b f) (Bnd_forbid g f W L B)).
  Qed.

  Lemma Bnd_apply : forall g f d, WF g -> f < length (objs g) -> Bnd g -> Bnd (fst (apply g f d)).
  Proof.
    assert (Lg : forall g f (p : P) m, WF g -> f < length (objs g) -> Bnd g -> Bnd (fst (log g f p m))).
    { intros g f p m W L B; unfold log.
      pose proof (original_le g f W) as Le.
      assert (Lo : get_original g f < length (objs g)) by lia.
      destruct (new_wrap_ok g 0 _ (OLog p (get_original g f)) W Lo (or_introl (ex_intro _ p eq_refl))) as [W1 _].
      pose proof (Bnd_new g (OLog p (get_original g f)) B) as B1.
      change (new g (OLog p (get_original g f))) with (fst (new g (OLog p (get_original g f))), length (objs g)).
      set (g1 := fst (new g (OLog p (get_original g f)))) in *.
      assert (L1 : length (objs g1) = S (length (objs g))) by (unfold g1; cbn [new fst objs]; rewrite app_length; cbn; lia).
      unfold choose.
      destruct (is_forbidden g1 _); [apply Bnd_unlog; [exact W1|lia|exact B1]|].
      destruct (is_decorator g1 f); [destruct (is_method g1 f); [|destruct m]|]; cbn [fst]; try exact B1.
      all: apply Bnd_add; [rewrite remove_objs; lia|apply Bnd_remove; exact B1]. }
    intros g f [p|p|b|] W L B; cbn [apply]; [apply Lg|apply Lg|apply Bnd_unlog|exact B]; assumption.
  Qed.

  Lemma Bnd_run : forall os (g : reg), WF g -> Bnd g -> Bnd (run os g).
  Proof.
    induction os as [|o os IH]; intros g W B; [exact B|]; apply (IH (step g o)); [apply step_WF; exact W|].
    destruct o as [|f d]; cbn [step]; [apply Bnd_new; exact B|].
    destruct (Nat.ltb_spec f (length (objs g))) as [L|L]; [apply Bnd_apply; assumption|exact B].
  Qed.

  Lemma Inv_start : forall os, let g := run os (@empty P) in
    Inv (length (objs g)) (step g Def) (length (objs g)) false false [].
  Proof.
    intros os g.
    assert (W : WF g) by (apply run_WF; apply WF_empty).
    assert (B : Bnd g) by (apply Bnd_run; [apply WF_empty|split; discriminate]).
    destruct B as [B1 B2]; apply Inv_def; [exact W| |].
    - destruct (mem (length (objs g)) (forb g)) eqn:E; [specialize (B1 _ E); lia|reflexivity].
    - destruct (mem (length (objs g)) (meth g)) eqn:E; [specialize (B2 _ E); lia|reflexivity].
  Qed.
End Bounds.
