(** Proofs about decorators of classes over the kinds of attributes. *)
From Verif Require Import Base DecoClass_Model DecoKind_Model DecoKind_Spec.
Local Open Scope string_scope.
Local Open Scope list_scope.

Lemma val_eqb_eq : forall a b, val_eqb a b = true -> a = b.
Proof. intros [i|i|i] [j|j|j]; cbn; intros H; try discriminate H; apply Nat.eqb_eq in H; congruence. Qed.

Section Fn.
  Context {P : Type}.
  Notation fn := (fn P).
  Notation registry := (registry P).

  Definition same (x y : fn) : Prop := forall a, calls x a = calls y a.

  Lemma fn_eqb_same : forall x y : fn, fn_eqb x y = true -> same x y.
  Proof.
    induction x as [i|i|i p t IH|i b t IH|t IH v]; intros [j|j|j q u|j c u|u w]; cbn; intros H; try discriminate H; intros a; cbn.
    - apply Nat.eqb_eq in H; congruence.
    - apply Nat.eqb_eq in H; congruence.
    - apply andb_prop in H as [_ H]; apply IH; exact H.
    - apply andb_prop in H as [_ H]; apply IH; exact H.
    - apply andb_prop in H as [H1 H2]; apply val_eqb_eq in H2; subst w; apply IH; exact H1.
  Qed.
  Lemma fn_eqb_function : forall x y : fn, fn_eqb x y = true -> is_function x = is_function y.
  Proof. intros [] []; cbn; intros H; try discriminate H; reflexivity. Qed.
  Lemma fn_eqb_refl : forall x : fn, fn_eqb x x = true.
  Proof.
    induction x as [i|i|i p t IH|i b t IH|t IH v]; cbn; rewrite ?Nat.eqb_refl, ?IH; try reflexivity.
    destruct v; cbn; apply Nat.eqb_refl.
  Qed.

  Lemma in_dset : forall (d : list (fn * fn)) k v x o, In (x, o) (dset fn_eqb d k v) ->
    In (x, o) d \/ (o = v /\ fn_eqb k x = true).
  Proof.
    induction d as [|[k' v'] r IH]; cbn; intros k v x o H.
    - destruct H as [H|[]]; injection H as <- <-; right; split; [reflexivity|apply fn_eqb_refl].
    - destruct (fn_eqb k k') eqn:E.
      + destruct H as [H|H]; [injection H as <- <-; right; auto|left; right; exact H].
      + destruct H as [H|H]; [left; left; exact H|destruct (IH _ _ _ _ H); auto].
  Qed.
  Lemma in_ddel : forall (d : list (fn * fn)) k x, In x (ddel fn_eqb d k) -> In x d.
  Proof.
    induction d as [|[k' v'] r IH]; cbn; intros k x H; [exact H|].
    destruct (fn_eqb k k'); [right; exact H|destruct H as [H|H]; [left; exact H|right; eapply IH; exact H]].
  Qed.
  Lemma dget_fn : forall (d : list (fn * fn)) k o, dget fn_eqb d k = Some o -> exists w, In (w, o) d /\ fn_eqb k w = true.
  Proof.
    induction d as [|[k' v'] r IH]; cbn; intros k o H; [discriminate H|].
    destruct (fn_eqb k k') eqn:E.
    - injection H as <-; exists k'; auto.
    - destruct (IH _ _ H) as [w [? ?]]; exists w; auto.
  Qed.

  (** The registry: an original does what its wrapper does, and a wrapper is a function. *)
  Definition pairs_ok (d : list (fn * fn)) : Prop := forall w o, In (w, o) d -> same w o /\ is_function w = true.
  Definition RInv (g : registry) : Prop := pairs_ok (decorated g) /\ pairs_ok (unlogged g).

  Lemma same_refl : forall x, same x x. Proof. intros x a; reflexivity. Qed.
  Lemma same_sym : forall x y, same x y -> same y x. Proof. intros x y H a; symmetry; apply H. Qed.
  Lemma same_trans : forall x y z, same x y -> same y z -> same x z.
  Proof. intros x y z H1 H2 a; rewrite H1; apply H2. Qed.

  Lemma pairs_dset : forall d w o, pairs_ok d -> same w o -> is_function w = true -> pairs_ok (dset fn_eqb d w o).
  Proof.
    intros d w o I S F x y H; destruct (in_dset _ _ _ _ _ H) as [H'|[-> E]]; [exact (I _ _ H')|].
    split; [exact (same_trans _ _ _ (same_sym _ _ (fn_eqb_same _ _ E)) S)|rewrite <- (fn_eqb_function _ _ E); exact F].
  Qed.
  Lemma pairs_ddel : forall d w, pairs_ok d -> pairs_ok (ddel fn_eqb d w).
  Proof. intros d w I x y H; apply I; exact (in_ddel _ _ _ H). Qed.

  Lemma original_same : forall g f, RInv g -> same (original g f) f.
  Proof.
    intros g f [I1 I2]; unfold original.
    destruct (dget fn_eqb (decorated g) f) as [o|] eqn:E1.
    - destruct (dget_fn _ _ _ E1) as [w [H E]].
      exact (same_sym _ _ (same_trans _ _ _ (fn_eqb_same _ _ E) (proj1 (I1 _ _ H)))).
    - destruct (dget fn_eqb (unlogged g) f) as [o|] eqn:E2; [|apply same_refl].
      destruct (dget_fn _ _ _ E2) as [w [H E]].
      exact (same_sym _ _ (same_trans _ _ _ (fn_eqb_same _ _ E) (proj1 (I2 _ _ H)))).
  Qed.
  Lemma decorator_function : forall g f, RInv g -> decorator_fn g f = true -> is_function f = true.
  Proof.
    intros g f [I1 I2]; unfold decorator_fn, original.
    destruct (dget fn_eqb (decorated g) f) as [o|] eqn:E1.
    - destruct (dget_fn _ _ _ E1) as [w [H E]]; intros _; rewrite (fn_eqb_function _ _ E); exact (proj2 (I1 _ _ H)).
    - destruct (dget fn_eqb (unlogged g) f) as [o|] eqn:E2.
      + destruct (dget_fn _ _ _ E2) as [w [H E]]; intros _; rewrite (fn_eqb_function _ _ E); exact (proj2 (I2 _ _ H)).
      + rewrite fn_eqb_refl; intros H; discriminate H.
  Qed.

  Lemma bump_RInv : forall g, RInv g -> RInv (bump g). Proof. intros g I; exact I. Qed.
  Lemma remove_RInv : forall g f, RInv g -> RInv (remove_fn g f).
  Proof.
    intros g f [I1 I2]; unfold remove_fn; destruct (decorator_fn g f); [|split; assumption].
    split; cbn; [apply pairs_ddel; exact I1|exact I2].
  Qed.
  Lemma forbid_RInv : forall g f, RInv g -> RInv (forbid_fn g f).
  Proof. intros g f I; unfold forbid_fn; destruct (forbidden_fn g (original g f)); exact I. Qed.
  Lemma add_RInv : forall g w o m, RInv g -> same w o -> is_function w = true -> RInv (add_fn g w o m).
  Proof. intros g w o m [I1 I2] S F; split; cbn; [apply pairs_dset; assumption|exact I2]. Qed.

  Lemma unlog_fn_ok : forall g f b, RInv g -> RInv (fst (unlog_fn g f b)) /\ same (snd (unlog_fn g f b)) f /\
    is_function (snd (unlog_fn g f b)) = true.
  Proof.
    intros g f b I; unfold unlog_fn.
    assert (H : forall g1 r, RInv g1 -> same r f ->
      let w := Unlog (fresh g1) b r in
      RInv (mkRegistry (fresh (bump g1)) (decorated (bump g1)) (dset fn_eqb (unlogged (bump g1)) w r) (forbidden (bump g1)) (methods_of (bump g1))) /\
      same w f /\ is_function w = true).
    { intros g1 r [I1 I2] S w; split; [|split; [exact S|reflexivity]].
      split; cbn; [exact I1|apply pairs_dset; [exact I2|intros a; reflexivity|reflexivity]]. }
    destruct (decorator_fn g f); cbn [fst snd]; apply H.
    - apply forbid_RInv; apply remove_RInv; exact I.
    - apply original_same; exact I.
    - apply forbid_RInv; exact I.
    - apply same_refl.
  Qed.

  Lemma log_fn_ok : forall g f p m, RInv g -> RInv (fst (log_fn g f p m)) /\ same (snd (log_fn g f p m)) f /\
    is_function (snd (log_fn g f p m)) = true.
  Proof.
    intros g f p m I; unfold log_fn, choose_fn.
    pose proof (original_same g f I) as So.
    assert (Ib : RInv (bump g)) by exact I.
    set (func := original g f) in *; set (w := Log (fresh g) p func).
    assert (Sw : same w func) by (intros a; reflexivity).
    assert (Swf : same w f) by exact (same_trans _ _ _ Sw So).
    destruct (forbidden_fn (bump g) func).
    { destruct (unlog_fn_ok (bump g) func None Ib) as [A [B C]].
      split; [exact A|split; [exact (same_trans _ _ _ B So)|exact C]]. }
    assert (Ad : forall g1, RInv g1 -> RInv (add_fn g1 w func m)) by (intros; apply add_RInv; auto).
    assert (Re : forall y, RInv (remove_fn (bump g) y)) by (intros; apply remove_RInv; auto).
    destruct (decorator_fn (bump g) f) eqn:D.
    - destruct (method_fn (bump g) f).
      + cbn [fst snd]; split; [apply Ad, Re|split; [exact Swf|reflexivity]].
      + destruct m.
        * cbn [fst snd]; split; [exact Ib|split; [apply same_refl|exact (decorator_function _ _ Ib D)]].
        * cbn [fst snd]; split; [apply Ad, Re|split; [exact Swf|reflexivity]].
    - cbn [fst snd]; split; [apply Ad, Re|split; [exact Swf|reflexivity]].
  Qed.

  Lemma deco_fn_ok : forall g f d, RInv g -> RInv (fst (deco_fn g f d)) /\ same (snd (deco_fn g f d)) f.
  Proof.
    intros g f [p|p|b|] I; cbn [deco_fn].
    - destruct (log_fn_ok g f p false I) as [? [? _]]; auto.
    - destruct (log_fn_ok g f p true I) as [? [? _]]; auto.
    - destruct (unlog_fn_ok g f b I) as [? [? _]]; auto.
    - split; [exact I|apply original_same; exact I].
  Qed.
  Lemma deco_fn_function : forall g f d, RInv g -> d <> HOrig -> is_function (snd (deco_fn g f d)) = true.
  Proof.
    intros g f [p|p|b|] I N; cbn [deco_fn].
    - apply log_fn_ok; exact I.
    - apply log_fn_ok; exact I.
    - apply unlog_fn_ok; exact I.
    - contradiction.
  Qed.

  (** x runs b with [pre] before the arguments of the caller. *)
  Definition acts (x b : fn) (pre : list val) : Prop := forall a, calls x a = (b, pre ++ a).
  Lemma acts_same : forall x y b pre, same x y -> acts y b pre -> acts x b pre.
  Proof. intros x y b pre S A a; rewrite S; apply A. Qed.
  Lemma acts_plain : forall x i, acts x (User i) [] -> is_function x = true.
  Proof.
    intros x i A.
    assert (L : forall y : fn, forall a, length (snd (calls y a)) >= length a).
    { induction y; intros a; cbn; try apply le_n; try apply IHy. specialize (IHy (v :: a)); cbn in IHy; lia. }
    destruct x as [j|j|j p t|j b t|t v]; try reflexivity.
    - specialize (A []); discriminate A.
    - specialize (A []); cbn in A; specialize (L t [v]); rewrite A in L; cbn in L; lia.
  Qed.
End Fn.

Section Inv.
  Context {P : Type}.
  Variable mro : nat -> list nat.
  Variable bodies : nat -> list (string * member).
  Hypothesis H : hierarchy mro bodies.
  Variable n : string.
  Hypothesis A : agrees mro bodies n.
  (** The classes under a class decorator, and those in whose body [n] has a decorator. *)
  Variable T B : nat -> Prop.

  Definition realises (c : nat) (m : member) (e : entry P) : Prop :=
    match m with
    | MFun i => exists x, e = EObj x /\ acts x (User i) []
    | MStatic i => exists x, (e = EStatic x \/ e = EObj x /\ T c) /\ acts x (User i) []
    | MClass i => exists x, (e = EClassM x /\ acts x (User i) []) \/
                            (e = EObj x /\ exists k, In k (mro c) /\ T k /\ acts x (User i) [VCls k])
    | MOther i => exists x, e = EObj x /\ acts x (Other i) [] /\ (x = Other i \/ T c \/ B c)
    | MData => e = EData
    end.

  Record Inv (w : world P) : Prop := {
    i_reg : RInv (reg_of w);
    i_some : forall c e, dget String.eqb (own w c) n = Some e -> exists m, defines mro bodies c n m /\ realises c m e;
    i_none : forall c, dget String.eqb (own w c) n = None -> ~ In n (map fst (bodies c)) }.

  Lemma in_self : forall c, In c (mro c).
  Proof. intros c; destruct (h_self _ _ H c) as [r ->]; left; reflexivity. Qed.

  Lemma first_det : forall cs m1 m2, first bodies cs n m1 -> first bodies cs n m2 -> m1 = m2.
  Proof.
    induction cs as [|c cs IH]; intros m1 m2 F1 F2; [inversion F1|].
    inversion F1 as [? ? ? ? I1|? ? ? ? N1 G1]; inversion F2 as [? ? ? ? I2|? ? ? ? N2 G2]; subst.
    - assert (D : forall m, In (n, m) (bodies c) -> dget String.eqb (bodies c) n = Some m).
      { intros m Hm; apply (In_dget _ String.eqb_spec); [apply (h_bodies _ _ H)|exact Hm]. }
      apply D in I1; apply D in I2; congruence.
    - destruct N2; apply (in_map fst) in I1; exact I1.
    - destruct N1; apply (in_map fst) in I2; exact I2.
    - exact (IH _ _ G1 G2).
  Qed.

  Lemma find_some : forall (o : nat -> list (string * entry P)) cs e, find o cs n = Some e ->
    exists before d after, cs = before ++ d :: after /\ dget String.eqb (o d) n = Some e /\
      forall b, In b before -> dget String.eqb (o b) n = None.
  Proof.
    intros o; induction cs as [|c cs IH]; cbn; intros e F; [discriminate F|].
    destruct (dget String.eqb (o c) n) as [e'|] eqn:E.
    - injection F as <-; exists [], c, cs; repeat split; auto; intros b [].
    - destruct (IH e F) as [before [d [after [-> [D Nb]]]]].
      exists (c :: before), d, after; repeat split; auto; intros b [<-|Hb]; auto.
  Qed.
  Lemma find_none : forall (o : nat -> list (string * entry P)) cs, find o cs n = None ->
    forall b, In b cs -> dget String.eqb (o b) n = None.
  Proof.
    intros o; induction cs as [|c cs IH]; cbn; intros F b Hb; [destruct Hb|].
    destruct (dget String.eqb (o c) n) as [e'|] eqn:E; [discriminate F|].
    destruct Hb as [<-|Hb]; auto.
  Qed.
  Lemma first_skip : forall before cs m, (forall b, In b before -> ~ In n (map fst (bodies b))) ->
    first bodies cs n m -> first bodies (before ++ cs) n m.
  Proof.
    induction before as [|b r IH]; cbn; intros cs m Nb F; [exact F|].
    apply first_later; [apply Nb; left; reflexivity|apply IH; [intros; apply Nb; right; assumption|exact F]].
  Qed.
  Lemma first_exists : forall cs m, first bodies cs n m -> exists c, In c cs /\ In n (map fst (bodies c)).
  Proof.
    induction cs as [|c cs IH]; intros m F; inversion F as [? ? ? ? I|? ? ? ? N G]; subst.
    - exists c; split; [left; reflexivity|apply (in_map fst) in I; exact I].
    - destruct (IH _ G) as [d [? ?]]; exists d; split; [right|]; assumption.
  Qed.

  Lemma lookup : forall w c e, Inv w -> find (own w) (mro c) n = Some e ->
    exists d m, In d (mro c) /\ defines mro bodies c n m /\ realises d m e.
  Proof.
    intros w c e I F; destruct (find_some _ _ _ F) as [before [d [after [E [D Nb]]]]].
    destruct (i_some _ I _ _ D) as [m [Dm R]].
    exists d, m; split; [rewrite E; apply in_or_app; right; left; reflexivity|split; [|exact R]].
    unfold defines; rewrite E; apply first_skip.
    - intros b Hb; apply (i_none _ I); apply Nb; exact Hb.
    - apply (A _ _ _ _ m E); exact Dm.
  Qed.
  Lemma lookup_some : forall w c m, Inv w -> defines mro bodies c n m -> exists e, find (own w) (mro c) n = Some e.
  Proof.
    intros w c m I D; destruct (find (own w) (mro c) n) as [e|] eqn:F; [exists e; reflexivity|].
    destruct (first_exists _ _ D) as [k [Hk Hn]]; destruct (i_none _ I k (find_none _ _ F k Hk) Hn).
  Qed.

  Lemma set_other : forall w c k x g, k <> n -> Inv w -> RInv g -> Inv (set_own (mkWorld g (own w)) c k x).
  Proof.
    intros w c k x g Nk I Rg.
    assert (E : forall d, dget String.eqb (own (set_own (mkWorld g (own w)) c k x) d) n = dget String.eqb (own w d) n).
    { intros d; cbn; destruct (Nat.eqb_spec d c); [|reflexivity].
      subst d; rewrite (dget_dset_other _ String.eqb_spec); auto. }
    constructor; [exact Rg| |].
    - intros d e; rewrite E; apply (i_some _ I).
    - intros d; rewrite E; apply (i_none _ I).
  Qed.

  Lemma set_here : forall w c x y g, Inv w -> RInv g -> T c -> in_class mro w c n = Ok (Some x) -> same y x ->
    Inv (set_own (mkWorld g (own w)) c n y).
  Proof.
    intros w c x y g I Rg Tc Ix S.
    unfold in_class in Ix; destruct (find (own w) (mro c) n) as [e|] eqn:F; [|discriminate Ix].
    destruct (lookup w c e I F) as [d [m [Hd [Dm R]]]].
    assert (Z : exists m, defines mro bodies c n m /\ realises c m (EObj y)).
    { exists m; split; [exact Dm|].
      destruct m as [i|i|i|i|]; cbn in R; [destruct R as [z R]..|].
      - destruct R as [-> Az]; cbn in Ix; injection Ix as <-; exists y; split; [reflexivity|].
        exact (acts_same _ _ _ _ S Az).
      - destruct R as [R Az]; exists y; split; [right; split; [reflexivity|exact Tc]|].
        destruct R as [->|[-> _]]; cbn in Ix; injection Ix as <-; exact (acts_same _ _ _ _ S Az).
      - exists y; right; split; [reflexivity|].
        destruct R as [[-> Az]|[-> [k [Hk [Tk Az]]]]]; cbn in Ix; injection Ix as <-.
        + exists c; split; [apply in_self|split; [exact Tc|]].
          apply (acts_same _ _ _ _ S); intros a; cbn; rewrite Az; reflexivity.
        + exists k; split; [exact (h_trans _ _ H _ _ _ Hd Hk)|split; [exact Tk|exact (acts_same _ _ _ _ S Az)]].
      - destruct R as [-> [Az _]]; cbn in Ix; injection Ix as <-; exists y; split; [reflexivity|split].
        + exact (acts_same _ _ _ _ S Az).
        + right; left; exact Tc.
      - rewrite R in Ix; discriminate Ix. }
    constructor; [exact Rg| |].
    - intros k e'; cbn; destruct (Nat.eqb_spec k c).
      + subst k; rewrite (dget_dset_same _ String.eqb_spec); intros E; injection E as <-; exact Z.
      + apply (i_some _ I).
    - intros k; cbn; destruct (Nat.eqb_spec k c).
      + subst k; rewrite (dget_dset_same _ String.eqb_spec); intros E; discriminate E.
      + apply (i_none _ I).
  Qed.

  Lemma each_Inv : forall d c ns w, T c -> Inv w -> Inv (fst (each_name mro w c ns d)).
  Proof.
    intros d c; induction ns as [|k ns IH]; cbn [each_name]; intros w Tc I; [exact I|].
    destruct (in_class mro w c k) as [[x|]|e] eqn:Ix; [|exact I|exact I].
    pose proof (deco_fn_ok (reg_of w) x d (i_reg _ I)) as [Rg S].
    destruct (deco_fn (reg_of w) x d) as [g y]; cbn [fst snd] in *.
    apply IH; [exact Tc|].
    destruct (String.eqb_spec k n) as [->|Nk]; [exact (set_here w c x y g I Rg Tc Ix S)|exact (set_other w c k y g Nk I Rg)].
  Qed.

  Definition allowed (o : kop P) : Prop :=
    match o with
    | KBody c k _ => k = n -> B c
    | KLog c _ _ | KUnlog c _ => T c
    end.

  Lemma kstep_Inv : forall w o, allowed o -> Inv w -> Inv (kstep mro w o).
  Proof.
    intros w [c k d|c ms p|c b] Al I; cbn [kstep].
    - destruct (dget String.eqb (own w c) k) as [e|] eqn:D; [|exact I].
      assert (Z : RInv (fst (inside (reg_of w) e d)) /\
                  forall m, B c -> realises c m e -> realises c m (snd (inside (reg_of w) e d))).
      { destruct e as [x|x|x|]; cbn [inside].
        - pose proof (deco_fn_ok (reg_of w) x d (i_reg _ I)) as [Rg S].
          destruct (deco_fn (reg_of w) x d) as [g y]; cbn [fst snd] in *; split; [exact Rg|].
          intros [i|i|i|i|] Bc R; cbn in *; [destruct R as [z R]..|discriminate R].
          + destruct R as [E Az]; injection E as <-; exists y; split; [reflexivity|exact (acts_same _ _ _ _ S Az)].
          + destruct R as [[E|[E Tc]] Az]; [discriminate E|injection E as <-]; exists y; split; [right; auto|exact (acts_same _ _ _ _ S Az)].
          + destruct R as [[E _]|[E [q [Hq [Tq Az]]]]]; [discriminate E|injection E as <-].
            exists y; right; split; [reflexivity|exists q; split; [exact Hq|split; [exact Tq|exact (acts_same _ _ _ _ S Az)]]].
          + destruct R as [E [Az _]]; injection E as <-; exists y; split; [reflexivity|split; [exact (acts_same _ _ _ _ S Az)|auto]].
        - pose proof (deco_fn_ok (reg_of w) x d (i_reg _ I)) as [Rg S].
          destruct (deco_fn (reg_of w) x d) as [g y]; cbn [fst snd] in *; split; [exact Rg|].
          intros [i|i|i|i|] Bc R; cbn in *; [destruct R as [z R]..|discriminate R].
          + destruct R as [E _]; discriminate E.
          + destruct R as [[E|[E Tc]] Az]; [injection E as <-|discriminate E]; exists y; split; [left; auto|exact (acts_same _ _ _ _ S Az)].
          + destruct R as [[E _]|[E _]]; discriminate E.
          + destruct R as [E _]; discriminate E.
        - pose proof (deco_fn_ok (reg_of w) x d (i_reg _ I)) as [Rg S].
          destruct (deco_fn (reg_of w) x d) as [g y]; cbn [fst snd] in *; split; [exact Rg|].
          intros [i|i|i|i|] Bc R; cbn in *; [destruct R as [z R]..|discriminate R].
          + destruct R as [E _]; discriminate E.
          + destruct R as [[E|[E _]] _]; discriminate E.
          + destruct R as [[E Az]|[E _]]; [injection E as <-|discriminate E].
            exists y; left; split; [reflexivity|exact (acts_same _ _ _ _ S Az)].
          + destruct R as [E _]; discriminate E.
        - split; [exact (i_reg _ I)|]; intros m _ R; exact R. }
      destruct (inside (reg_of w) e d) as [g e'] eqn:Ei; cbn [fst snd] in Z; destruct Z as [Rg Z].
      constructor; [exact Rg| |]; cbn [own].
      + intros q f; destruct (Nat.eqb_spec q c); [|apply (i_some _ I)]; subst q.
        destruct (String.eqb_spec k n) as [->|Nk].
        * rewrite (dget_dset_same _ String.eqb_spec); intros E; injection E as <-.
          destruct (i_some _ I _ _ D) as [m [Dm R]]; exists m; split; [exact Dm|].
          apply Z; [apply Al; reflexivity|exact R].
        * rewrite (dget_dset_other _ String.eqb_spec) by exact Nk; apply (i_some _ I).
      + intros q; destruct (Nat.eqb_spec q c); [|apply (i_none _ I)]; subst q.
        destruct (String.eqb_spec k n) as [->|Nk].
        * rewrite (dget_dset_same _ String.eqb_spec); intros E; discriminate E.
        * rewrite (dget_dset_other _ String.eqb_spec) by exact Nk; apply (i_none _ I).
    - unfold log_class.
      pose proof (each_Inv (HMeth p) c (match ms with [] => loggable mro w c | _ => ms end) w Al I) as I1.
      destruct (each_name mro w c (match ms with [] => loggable mro w c | _ => ms end) (HMeth p)) as [w1 [e|]]; cbn [fst] in *; [exact I1|].
      apply each_Inv; assumption.
    - apply each_Inv; assumption.
  Qed.

  Lemma krun_Inv : forall os w, Forall allowed os -> Inv w -> Inv (krun mro w os).
  Proof.
    induction os as [|o os IH]; cbn; intros w F I; [exact I|].
    inversion F; subst; apply IH; [assumption|apply kstep_Inv; assumption].
  Qed.

  Lemma dget_map : forall (l : list (string * member)), dget String.eqb (map (fun nm => (fst nm, @entry_of P (snd nm))) l) n =
    match dget String.eqb l n with Some m => Some (entry_of m) | None => None end.
  Proof. induction l as [|[k m] l IH]; cbn; [reflexivity|]; destruct (String.eqb n k); auto. Qed.

  Lemma kstart_Inv : Inv (kstart bodies).
  Proof.
    constructor.
    - split; intros w o [].
    - intros c e; cbn; rewrite dget_map; destruct (dget String.eqb (bodies c) n) as [m|] eqn:D; intros E; [injection E as <-|discriminate E].
      exists m; split.
      + unfold defines; destruct (h_self _ _ H c) as [r ->]; apply first_here; exact (dget_In _ String.eqb_spec _ _ _ D).
      + destruct m as [i|i|i|i|]; cbn.
        * exists (User i); split; [reflexivity|intros a; reflexivity].
        * exists (User i); split; [left; reflexivity|intros a; reflexivity].
        * exists (User i); left; split; [reflexivity|intros a; reflexivity].
        * exists (Other i); split; [reflexivity|split; [intros a; reflexivity|left; reflexivity]].
        * reflexivity.
    - intros c; cbn; rewrite dget_map; destruct (dget String.eqb (bodies c) n) as [m|] eqn:D; intros E; [discriminate E|].
      apply (dget_None _ String.eqb_spec) in D; exact D.
  Qed.
End Inv.

(** The exact effect of a class decorator on the names it covers. *)
Section Each.
  Context {P : Type}.
  Variable mro : nat -> list nat.

  Lemma each_RInv : forall (d : how P) c ns w, RInv (reg_of w) -> RInv (reg_of (fst (each_name mro w c ns d))).
  Proof.
    intros d c; induction ns as [|k ns IH]; cbn [each_name]; intros w I; [exact I|].
    destruct (in_class mro w c k) as [[x|]|e]; [|exact I|exact I].
    pose proof (deco_fn_ok (reg_of w) x d I) as [Rg _].
    destruct (deco_fn (reg_of w) x d) as [g y]; cbn [fst snd] in *.
    apply IH; exact Rg.
  Qed.
  Lemma kstep_RInv : forall (w : world P) o, RInv (reg_of w) -> RInv (reg_of (kstep mro w o)).
  Proof.
    intros w [c k d|c ms p|c b] I; cbn [kstep].
    - destruct (dget String.eqb (own w c) k) as [e|]; [|exact I].
      assert (Z : RInv (fst (inside (reg_of w) e d))).
      { destruct e as [x|x|x|]; cbn [inside]; [pose proof (deco_fn_ok (reg_of w) x d I) as [Rg _]; destruct (deco_fn (reg_of w) x d); exact Rg..|exact I]. }
      destruct (inside (reg_of w) e d); exact Z.
    - unfold log_class.
      pose proof (each_RInv (HMeth p) c (match ms with [] => loggable mro w c | _ => ms end) w I) as I1.
      destruct (each_name mro w c (match ms with [] => loggable mro w c | _ => ms end) (HMeth p)) as [w1 [e|]]; cbn [fst] in *; [exact I1|].
      apply each_RInv; exact I1.
    - apply each_RInv; exact I.
  Qed.
  Lemma krun_RInv : forall os (w : world P), RInv (reg_of w) -> RInv (reg_of (krun mro w os)).
  Proof. induction os as [|o os IH]; cbn; intros w I; [exact I|]; apply IH, kstep_RInv, I. Qed.

  Lemma each_own : forall (d : how P) c ns w e, e <> c -> own (fst (each_name mro w c ns d)) e = own w e.
  Proof.
    intros d c; induction ns as [|k ns IH]; cbn [each_name]; intros w e N; [reflexivity|].
    destruct (in_class mro w c k) as [[x|]|ex]; [|reflexivity|reflexivity].
    destruct (deco_fn (reg_of w) x d) as [g y]; rewrite IH by exact N; cbn.
    destruct (Nat.eqb_spec e c); [contradiction|reflexivity].
  Qed.
  Lemma log_class_own : forall (w : world P) c ms p e, e <> c -> own (fst (log_class mro w c ms p)) e = own w e.
  Proof.
    intros w c ms p e N; unfold log_class.
    pose proof (each_own (HMeth p) c (match ms with [] => loggable mro w c | _ => ms end) w e N) as E1.
    destruct (each_name mro w c (match ms with [] => loggable mro w c | _ => ms end) (HMeth p)) as [w1 [x|]]; cbn [fst] in *; [exact E1|].
    rewrite each_own by exact N; exact E1.
  Qed.

  Lemma find_ext : forall (o1 o2 : nat -> list (string * entry P)) cs k,
    (forall d, In d cs -> dget String.eqb (o1 d) k = dget String.eqb (o2 d) k) -> find o1 cs k = find o2 cs k.
  Proof.
    intros o1 o2; induction cs as [|c cs IH]; cbn; intros k E; [reflexivity|].
    rewrite (E c (or_introl eq_refl)); destruct (dget String.eqb (o2 c) k); [reflexivity|]; apply IH; intros; apply E; right; assumption.
  Qed.

  Lemma in_class_set : forall g (w : world P) c k y n, k <> n ->
    in_class mro (set_own (mkWorld g (own w)) c k y) c n = in_class mro w c n.
  Proof.
    intros g w c k y n N; unfold in_class; erewrite find_ext; [reflexivity|].
    intros d _; cbn; destruct (Nat.eqb_spec d c); [|reflexivity].
    subst d; apply (dget_dset_other _ String.eqb_spec); exact N.
  Qed.

  Lemma each_all : forall (d : how P) c, d <> HOrig -> forall ns w, RInv (reg_of w) -> NoDup ns ->
    (forall k, In k ns -> can_call mro w c k = true) ->
    snd (each_name mro w c ns d) = None /\
    (forall k, ~ In k ns -> dget String.eqb (own (fst (each_name mro w c ns d)) c) k = dget String.eqb (own w c) k) /\
    (forall k, In k ns -> exists x y, in_class mro w c k = Ok (Some x) /\
       dget String.eqb (own (fst (each_name mro w c ns d)) c) k = Some (EObj y) /\ is_function y = true /\ same y x).
  Proof.
    intros d c Nd; induction ns as [|k ns IH]; cbn [each_name]; intros w I ND Ca.
    { repeat split; intros k []. }
    inversion ND as [|? ? Nk ND']; subst.
    pose proof (Ca k (or_introl eq_refl)) as Ck; unfold can_call in Ck.
    destruct (in_class mro w c k) as [[x|]|ex] eqn:Ix; try discriminate Ck.
    pose proof (deco_fn_ok (reg_of w) x d I) as [Rg S].
    pose proof (deco_fn_function (reg_of w) x d I Nd) as Fy.
    destruct (deco_fn (reg_of w) x d) as [g y]; cbn [fst snd] in *.
    set (w1 := set_own (mkWorld g (own w)) c k y).
    assert (Ic : forall q, In q ns -> in_class mro w1 c q = in_class mro w c q).
    { intros q Hq; apply in_class_set; intros ->; contradiction. }
    destruct (IH w1 Rg ND') as [E1 [E2 E3]].
    { intros q Hq; unfold can_call; rewrite Ic by exact Hq; apply Ca; right; exact Hq. }
    split; [exact E1|split].
    - intros q Hq; rewrite E2; [|intros Hn; apply Hq; right; exact Hn].
      cbn; rewrite Nat.eqb_refl; apply (dget_dset_other _ String.eqb_spec); intros ->; apply Hq; left; reflexivity.
    - intros q [<-|Hq].
      + exists x, y; split; [exact Ix|split; [|split; assumption]].
        rewrite E2 by exact Nk; cbn; rewrite Nat.eqb_refl; apply (dget_dset_same _ String.eqb_spec).
      + destruct (E3 q Hq) as [x' [y' [A1 A2]]]; exists x', y'; split; [rewrite <- Ic by exact Hq; exact A1|exact A2].
  Qed.

  Lemma find_after : forall (o : nat -> list (string * entry P)) c k e after before,
    dget String.eqb (o c) k = Some e -> (forall b, In b before -> b <> c -> dget String.eqb (o b) k = None) ->
    find o (before ++ c :: after) k = Some e.
  Proof.
    intros o c k e after; induction before as [|b r IH]; cbn; intros D Nb; [rewrite D; reflexivity|].
    destruct (Nat.eq_dec b c) as [->|N]; [rewrite D; reflexivity|].
    rewrite (Nb b (or_introl eq_refl) N); apply IH; [exact D|intros; apply Nb; [right|]; assumption].
  Qed.

  (** Names that no body and no class decorator gives to a class. *)
  Lemma each_none : forall (d : how P) c ns w e n, e <> c -> dget String.eqb (own w e) n = None ->
    dget String.eqb (own (fst (each_name mro w c ns d)) e) n = None.
  Proof. intros; rewrite each_own by assumption; assumption. Qed.
  Lemma krun_none : forall os (w : world P) e n, ~ under_class os e -> dget String.eqb (own w e) n = None ->
    dget String.eqb (own (krun mro w os) e) n = None.
  Proof.
    induction os as [|o os IH]; cbn; intros w e n U D; [exact D|].
    apply IH.
    { intros [[ms [p Hi]]|[b Hi]]; apply U; [left; exists ms, p|right; exists b]; right; exact Hi. }
    destruct o as [c k d|c ms p|c b]; cbn [kstep].
    - destruct (dget String.eqb (own w c) k) as [x|] eqn:Dk; [|exact D].
      destruct (inside (reg_of w) x d) as [g x']; cbn [own].
      destruct (Nat.eqb_spec e c); [|exact D]; subst c.
      rewrite (dget_dset_other _ String.eqb_spec); [exact D|intros ->; congruence].
    - rewrite log_class_own; [exact D|]; intros ->; apply U; left; exists ms, p; left; reflexivity.
    - unfold unlog_cls; rewrite each_own; [exact D|]; intros ->; apply U; right; exists b; left; reflexivity.
  Qed.
End Each.
