(** Lemmas about class decorators. *)
From Verif Require Import Base Deco_Model Deco_Spec Deco_Proofs DecoClass_Model DecoClass_Spec.
From Coq Require Import Lia.
Local Open Scope string_scope.
Local Open Scope list_scope.

Section Strings.
  Lemma prefix_spec : forall s t, String.prefix s t = true <-> exists r, t = String.append s r.
  Proof.
    induction s as [|a s IH]; intros t; cbn.
    - split; [eauto|destruct t; reflexivity].
    - destruct t as [|b t]; [split; [discriminate|intros [r H]; discriminate]|].
      cbn [String.prefix String.append].
      destruct (Ascii.ascii_dec a b) as [->|N].
      + specialize (IH t); split.
        * intros H; apply IH in H; destruct H as [r H]; exists r; now rewrite H.
        * intros [r H]; apply IH; exists r; now injection H.
      + split; [discriminate|intros [r H]; injection H as H _; congruence].
  Qed.

  Lemma substring_all : forall s, String.substring 0 (String.length s) s = s.
  Proof. induction s as [|a s IH]; cbn; [reflexivity|now rewrite IH]. Qed.

  Lemma substring_append : forall r s, String.substring (String.length r) (String.length s) (String.append r s) = s.
  Proof. induction r as [|a r IH]; intros s; cbn; [apply substring_all|apply IH]. Qed.

  Lemma length_append : forall r s, String.length (String.append r s) = String.length r + String.length s.
  Proof. induction r as [|a r IH]; intros s; cbn; [reflexivity|now rewrite IH]. Qed.

  Lemma split_at : forall t n, n <= String.length t ->
    t = String.append (String.substring 0 n t) (String.substring n (String.length t - n) t).
  Proof.
    induction t as [|a t IH]; intros n H; cbn in *.
    - destruct n; [reflexivity|lia].
    - destruct n as [|n]; cbn.
      + f_equal; symmetry; apply substring_all.
      + f_equal; apply IH; lia.
  Qed.

  Lemma ends_with_spec : forall s t, ends_with s t = true <-> exists r, t = String.append r s.
  Proof.
    intros s t; unfold ends_with; split.
    - intros H; apply andb_true_iff in H; destruct H as [L E].
      apply Nat.leb_le in L; apply String.eqb_eq in E.
      exists (String.substring 0 (String.length t - String.length s) t).
      rewrite E at 2.
      rewrite (split_at t (String.length t - String.length s)) at 1 by lia.
      f_equal; f_equal; lia.
    - intros [r ->]; rewrite length_append; apply andb_true_iff; split; [apply Nat.leb_le; lia|].
      apply String.eqb_eq; replace (String.length r + String.length s - String.length s) with (String.length r) by lia.
      symmetry; apply substring_append.
  Qed.

  Lemma starts_iff : forall n, starts_with "__" n = true <-> dunder_start n.
  Proof. intros n; apply prefix_spec. Qed.
  Lemma ends_iff : forall n, ends_with "__" n = true <-> dunder_end n.
  Proof. intros n; apply ends_with_spec. Qed.
End Strings.

Section Classes.
  Context {P : Type}.
  Notation reg := (Deco_Model.reg P).
  Notation view := (bool * bool * list (layer P))%type.

  (** Object x is the current version of f, seen as v; the class mark matters only while f is not forbidden. *)
  Definition Good (g : reg) (x f : nat) (v : view) : Prop :=
    exists mt', (fst (fst v) = false -> mt' = snd (fst v)) /\ Inv f g x (fst (fst v)) mt' (snd v).

  Definition next (v : view) (d : deco P) : view := let '(fb, mt, ls) := v in nextv fb mt ls d.

  Lemma Good_apply : forall g x f v d, Good g x f v -> let '(g', x') := apply g x d in Good g' x' f (next v d).
  Proof.
    intros g x f [[fb mt] ls] d [mt' [E I]]; cbn [fst snd] in *.
    pose proof (apply_inv f g x fb mt' ls d I) as A; destruct (apply g x d) as [g' x'].
    destruct A as [m2 A]; exists m2; cbn [next]; destruct fb.
    - assert (E2 : fst (fst (nextv true mt' ls d)) = true /\ fst (fst (nextv true mt ls d)) = true /\
                   snd (nextv true mt' ls d) = snd (nextv true mt ls d)).
      { destruct d; cbn; auto. }
      destruct (nextv true mt' ls d) as [[a1 a2] a3]; destruct (nextv true mt ls d) as [[b1 b2] b3]; cbn in *.
      destruct E2 as [-> [-> ->]]; destruct A as [_ A]; split; [discriminate|exact A].
    - rewrite <- (E eq_refl); destruct (nextv false mt' ls d) as [[a1 a2] a3]; cbn; exact A.
  Qed.

  Lemma Good_other : forall g g' x f v r, Good g x f v -> WF g' -> only r g g' -> r <> f -> Good g' x f v.
  Proof. intros g g' x f v r [mt' [E I]] W O N; exists mt'; split; [exact E|exact (Inv_other _ _ _ _ _ _ _ _ I W O N)]. Qed.

  Lemma Good_facts : forall g x f v, Good g x f v -> WF g /\ x < length (objs g) /\ root g x = f /\ layers g x = snd v.
  Proof.
    intros g x f v [mt' [_ I]]; split; [exact (iv_wf _ _ _ _ _ _ I)|].
    split; [apply (Inv_cur _ _ _ _ _ _ I)|]; split; [exact (Inv_root _ _ _ _ _ _ I)|exact (Inv_layers _ _ _ _ _ _ I)].
  Qed.

  (** A class whose methods are versions of different functions F, seen as V. *)
  Record CI (g : reg) (c : cls) (F : string -> nat) (V : string -> view) : Prop := {
    ci_nd : NoDup (map fst c);
    ci_good : forall n x, getattr c n = Some (AFun x) -> Good g x (F n) (V n);
    ci_apart : forall n m x y, n <> m -> getattr c n = Some (AFun x) -> getattr c m = Some (AFun y) -> F n <> F m }.

  Lemma getattr_setattr : forall c n a m, getattr (setattr c n a) m = if String.eqb m n then Some a else getattr c m.
  Proof. intros; unfold getattr, setattr; apply dget_dset; apply String.eqb_spec. Qed.

  Lemma setattr_names : forall (c : cls) n a b, getattr c n = Some b -> map fst (setattr c n a) = map fst c.
  Proof.
    induction c as [|[k v] c IH]; intros n a b H; [discriminate|].
    unfold getattr, setattr in *; cbn [dget dset] in *; destruct (String.eqb n k); [reflexivity|].
    cbn [map fst]; f_equal; exact (IH n a b H).
  Qed.

  Definition shape (c : cls) (n : string) : option bool := option_map callable (getattr c n).

  Lemma each_ok : forall names g c d F V, CI g c F V -> (forall n, In n names -> shape c n = Some true) ->
    exists g' c', each g c names d = Ok (g', c') /\
      CI g' c' F (fun n => nexts (V n) (repeat d (count_occ string_dec names n))) /\
      map fst c' = map fst c /\ (forall n, shape c' n = shape c n).
  Proof.
    induction names as [|m names IH]; intros g c d F V I S; cbn [each].
    { exists g, c; split; [reflexivity|split; [|split; reflexivity]].
      destruct I as [A B C]; constructor; auto. }
    assert (Sm : shape c m = Some true) by (apply S; left; reflexivity).
    destruct (getattr c m) as [[x|]|] eqn:Em; try (unfold shape in Sm; rewrite Em in Sm; discriminate).
    pose proof (ci_good _ _ _ _ I m x Em) as Gm; destruct (Good_facts _ _ _ _ Gm) as [W [L [R _]]].
    pose proof (Good_apply g x (F m) (V m) d Gm) as Ga; pose proof (apply_ok g x d W L) as Oa.
    destruct (apply g x d) as [g1 x1]; destruct Oa as [W1 [O1 _]]; rewrite R in O1.
    set (V1 := fun n => if String.eqb n m then next (V m) d else V n).
    assert (I1 : CI g1 (setattr c m (AFun x1)) F V1).
    { constructor.
      - rewrite (setattr_names c m (AFun x1) _ Em); apply I.
      - intros n y Hn; rewrite getattr_setattr in Hn; unfold V1.
        destruct (String.eqb_spec n m) as [->|N]; [injection Hn as <-; exact Ga|].
        apply (Good_other g g1 y (F n) (V n) (F m)); [exact (ci_good _ _ _ _ I n y Hn)|exact W1|exact O1|].
        apply (ci_apart _ _ _ _ I m n x y); auto.
      - intros n k y z N Hn Hk; rewrite getattr_setattr in Hn, Hk.
        assert (Hn' : exists y', getattr c n = Some (AFun y')) by (destruct (String.eqb_spec n m) as [->|]; eauto).
        assert (Hk' : exists y', getattr c k = Some (AFun y')) by (destruct (String.eqb_spec k m) as [->|]; eauto).
        destruct Hn' as [y' Hn']; destruct Hk' as [z' Hk']; exact (ci_apart _ _ _ _ I n k y' z' N Hn' Hk'). }
    assert (S1 : forall n, shape (setattr c m (AFun x1)) n = shape c n).
    { intros n; unfold shape; rewrite getattr_setattr; destruct (String.eqb_spec n m) as [->|]; [rewrite Em; reflexivity|reflexivity]. }
    destruct (IH g1 (setattr c m (AFun x1)) d F V1 I1) as [g' [c' [E [I' [Nm Sh]]]]].
    { intros n Hn; rewrite S1; apply S; right; exact Hn. }
    exists g', c'; split; [exact E|split; [|split]].
    - destruct I' as [A B C]; constructor; auto.
      intros n y Hn; specialize (B n y Hn); unfold V1 in B.
      cbn [count_occ]; destruct (string_dec m n) as [<-|N].
      + rewrite String.eqb_refl in B; cbn [repeat nexts]; destruct (V m) as [[? ?] ?]; exact B.
      + destruct (String.eqb_spec n m); [congruence|exact B].
    - rewrite Nm; exact (setattr_names c m (AFun x1) _ Em).
    - intros n; rewrite Sh; apply S1.
  Qed.

  (** The names that the decorators choose. *)
  Lemma in_names : forall (c : cls) (q : string * attr -> bool) n, NoDup (map fst c) ->
    count_occ string_dec (map fst (filter q c)) n =
      match getattr c n with Some a => if q (n, a) then 1 else 0 | None => 0 end.
  Proof.
    induction c as [|[k a] c IH]; intros q n N; [reflexivity|].
    cbn [map fst] in N; inversion N as [|? ? Ni N']; subst.
    unfold getattr; cbn [dget filter].
    destruct (String.eqb_spec n k) as [->|Ne].
    - assert (Z : count_occ string_dec (map fst (filter q c)) k = 0).
      { apply count_occ_not_In; intros H; apply Ni; apply in_map_iff in H; destruct H as [[k' a'] [E H]].
        apply filter_In in H; cbn in E; subst; apply in_map_iff; exists (k, a'); tauto. }
      destruct (q (k, a)); cbn [map fst count_occ]; [|exact Z].
      destruct (string_dec k k); [now rewrite Z|contradiction].
    - assert (Z : count_occ string_dec (map fst (filter q c)) n = match getattr c n with Some a => if q (n, a) then 1 else 0 | None => 0 end)
        by (apply IH; exact N').
      destruct (q (k, a)); cbn [map fst count_occ]; [|exact Z].
      destruct (string_dec k n); [congruence|exact Z].
  Qed.

  Lemma names_shape : forall (c : cls) q n, NoDup (map fst c) -> In n (map fst (filter q c)) ->
    (forall a, q (n, a) = true -> callable a = true) -> shape c n = Some true.
  Proof.
    intros c q n N H Q; apply (count_occ_In string_dec) in H; rewrite in_names in H by exact N.
    unfold shape; destruct (getattr c n) as [a|]; [|lia]; cbn.
    destruct (q (n, a)) eqn:E; [|lia]; rewrite (Q a E); reflexivity.
  Qed.

  (** The decorations of a class decorator, as a function. *)
  Definition plain (n : string) : bool := negb (starts_with "__" n) && negb (ends_with "__" n).
  Definition addsf (o : cop P) (n : string) : list (deco P) :=
    match o with
    | CLog [] p => if plain n then [DMeth p] else []
    | CLog ms p => if named n ms then repeat (DMeth p) (count_occ string_dec ms n) else if plain n then [DOrig] else []
    | CUnlog b => if starts_with "__" n then [] else [DUnlog b]
    end.

  Lemma named_In : forall n l, named n l = true <-> In n l.
  Proof.
    intros n l; unfold named; rewrite existsb_exists; split.
    - intros [y [Hy E]]; apply String.eqb_eq in E; subst; exact Hy.
    - intros H; exists n; split; [exact H|apply String.eqb_refl].
  Qed.

  Lemma plain_iff : forall n, plain n = true <-> ~ dunder_start n /\ ~ dunder_end n.
  Proof.
    intros n; unfold plain; rewrite andb_true_iff, !negb_true_iff, <- starts_iff, <- ends_iff.
    destruct (starts_with "__" n), (ends_with "__" n); intuition congruence.
  Qed.

  Lemma adds_fun : forall n o ds, adds n o ds -> addsf o n = ds.
  Proof.
    intros n o ds H; destruct H as [p Hs He|p Hd|ms p Hms Hin|ms p Hms Hin Hs He|ms p Hms Hin Hd|b Hs|b Hs]; cbn [addsf].
    - assert (Pl : plain n = true) by (apply plain_iff; auto); rewrite Pl; reflexivity.
    - destruct (plain n) eqn:Pl; [apply plain_iff in Pl; tauto|reflexivity].
    - destruct ms as [|m ms]; [contradiction|]; apply named_In in Hin; rewrite Hin; reflexivity.
    - destruct ms as [|m ms]; [contradiction|].
      destruct (named n (m :: ms)) eqn:E; [apply named_In in E; contradiction|].
      assert (Pl : plain n = true) by (apply plain_iff; auto); rewrite Pl; reflexivity.
    - destruct ms as [|m ms]; [contradiction|].
      destruct (named n (m :: ms)) eqn:E; [apply named_In in E; contradiction|].
      destruct (plain n) eqn:Pl; [apply plain_iff in Pl; tauto|reflexivity].
    - destruct (starts_with "__" n) eqn:E; [apply starts_iff in E; contradiction|reflexivity].
    - apply starts_iff in Hs; rewrite Hs; reflexivity.
  Qed.

  Definition names_functions (c : cls) (o : cop P) : Prop :=
    match o with CLog ms _ => forall m, In m ms -> shape c m = Some true | CUnlog _ => True end.

  Lemma shape_fun : forall (c : cls) n, shape c n = Some true -> exists x, getattr c n = Some (AFun x).
  Proof. intros c n H; unfold shape in H; destruct (getattr c n) as [[x|]|]; try discriminate; eauto. Qed.

  Lemma CI_ext : forall g c F V V', CI g c F V -> (forall n x, getattr c n = Some (AFun x) -> V n = V' n) -> CI g c F V'.
  Proof. intros g c F V V' [A B C] H; constructor; auto; intros n x Hn; rewrite <- (H n x Hn); auto. Qed.

  Lemma logging_count : forall c n x, NoDup (map fst c) -> getattr c n = Some (AFun x) ->
    count_occ string_dec (logging_methods c) n = if plain n then 1 else 0.
  Proof.
    intros c n x N H; unfold logging_methods; rewrite in_names by exact N; rewrite H; cbn [callable fst snd].
    reflexivity.
  Qed.

  Lemma logging_shape : forall c n, NoDup (map fst c) -> In n (logging_methods c) -> shape c n = Some true.
  Proof.
    intros c n N H; apply (names_shape c _ n N H); intros a Q; cbn [fst snd] in Q.
    apply andb_true_iff in Q; tauto.
  Qed.

  Lemma count_filter : forall (q : string -> bool) l n,
    count_occ string_dec (filter q l) n = if q n then count_occ string_dec l n else 0.
  Proof.
    intros q l n; induction l as [|a l IH]; [now destruct (q n)|]; cbn [filter count_occ].
    destruct (string_dec a n) as [->|N].
    - destruct (q n) eqn:E; cbn [count_occ]; [|exact IH].
      destruct (string_dec n n); [now rewrite IH|contradiction].
    - destruct (q a); cbn [count_occ]; [destruct (string_dec a n); [contradiction|]|]; exact IH.
  Qed.

  Lemma capply_ok : forall g c o F V, CI g c F V -> names_functions c o ->
    exists g' c', capply (g, c) o = Ok (g', c') /\ CI g' c' F (fun n => nexts (V n) (addsf o n)) /\
      map fst c' = map fst c /\ (forall n, shape c' n = shape c n).
  Proof.
    intros g c o F V I H; pose proof (ci_nd _ _ _ _ I) as N; destruct o as [ms p|b]; cbn [capply fst snd].
    - unfold clog.
      set (all := match ms with [] => logging_methods c | _ => ms end).
      assert (Sa : forall n, In n all -> shape c n = Some true).
      { intros n Hn; unfold all in Hn; destruct ms; [exact (logging_shape c n N Hn)|exact (H n Hn)]. }
      destruct (each_ok all g c (DMeth p) F V I Sa) as [g1 [c1 [E1 [I1 [N1 S1]]]]].
      rewrite E1; cbn [bindR fst snd].
      set (orig := match ms with [] => [] | _ => filter (fun n => negb (named n ms)) (logging_methods c1) end).
      assert (So : forall n, In n orig -> shape c1 n = Some true).
      { intros n Hn; unfold orig in Hn; destruct ms; [contradiction|].
        apply filter_In in Hn; apply logging_shape; [rewrite N1; exact N|tauto]. }
      destruct (each_ok orig g1 c1 DOrig F _ I1 So) as [g2 [c2 [E2 [I2 [N2 S2]]]]].
      exists g2, c2; split; [exact E2|split; [|split; [congruence|intros n; rewrite S2; apply S1]]].
      apply (CI_ext _ _ _ _ _ I2); intros n x Hx; cbv beta.
      rewrite <- nexts_app; f_equal.
      assert (Hc : exists y, getattr c n = Some (AFun y)).
      { apply shape_fun; rewrite <- S1, <- S2; unfold shape; rewrite Hx; reflexivity. }
      assert (Hc1 : exists y, getattr c1 n = Some (AFun y)).
      { apply shape_fun; rewrite <- S2; unfold shape; rewrite Hx; reflexivity. }
      destruct Hc as [y Hy]; destruct Hc1 as [z Hz].
      unfold all, orig; destruct ms as [|m ms]; cbn [addsf].
      + rewrite (logging_count c n y N Hy); destruct (plain n); reflexivity.
      + rewrite count_filter, (logging_count c1 n z) by (try rewrite N1; assumption).
        destruct (named n (m :: ms)) eqn:Em; cbn [negb].
        * rewrite app_nil_r; reflexivity.
        * assert (Z : count_occ string_dec (m :: ms) n = 0).
          { apply count_occ_not_In; intros Hin; apply named_In in Hin; congruence. }
          rewrite Z; destruct (plain n); reflexivity.
    - unfold unlog_class.
      set (q := fun na : string * attr => negb (starts_with "__" (fst na)) && callable (snd na)).
      destruct (each_ok (map fst (filter q c)) g c (DUnlog b) F V I) as [g1 [c1 [E1 [I1 [N1 S1]]]]].
      { intros n Hn; apply (names_shape c q n N Hn); intros a Q; unfold q in Q; cbn [fst snd] in Q; apply andb_true_iff in Q; tauto. }
      exists g1, c1; split; [exact E1|split; [|split; [exact N1|exact S1]]].
      apply (CI_ext _ _ _ _ _ I1); intros n x Hx; cbv beta; f_equal.
      assert (Hc : exists y, getattr c n = Some (AFun y)).
      { apply shape_fun; rewrite <- S1; unfold shape; rewrite Hx; reflexivity. }
      destruct Hc as [y Hy]; rewrite in_names by exact N; rewrite Hy; unfold q; cbn [fst snd callable addsf].
      destruct (starts_with "__" n); reflexivity.
  Qed.

  Lemma capplies_ok : forall os g c F V, CI g c F V -> Forall (names_functions c) os ->
    exists g' c', capplies (g, c) os = Ok (g', c') /\
      CI g' c' F (fun n => nexts (V n) (concat (map (fun o => addsf o n) os))) /\ (forall n, shape c' n = shape c n).
  Proof.
    induction os as [|o os IH]; intros g c F V I H; cbn [capplies map concat].
    { exists g, c; split; [reflexivity|split; [exact I|reflexivity]]. }
    inversion H as [|? ? Ho Hr]; subst.
    destruct (capply_ok g c o F V I Ho) as [g1 [c1 [E1 [I1 [N1 S1]]]]].
    rewrite E1; cbn [bindR].
    destruct (IH g1 c1 F _ I1) as [g' [c' [E [I' S']]]].
    { apply Forall_forall; intros o' Ho'; rewrite Forall_forall in Hr; specialize (Hr o' Ho').
      destruct o' as [ms p|b]; [|exact Logic.I]; intros m Hm; cbn [names_functions]; rewrite S1; exact (Hr m Hm). }
    exists g', c'; split; [exact E|split; [|intros n; rewrite S'; apply S1]].
    apply (CI_ext _ _ _ _ _ I'); intros n x Hx; cbv beta; rewrite nexts_app; reflexivity.
  Qed.
End Classes.

Section Bodies.
  Context {P : Type}.
  Notation reg := (Deco_Model.reg P).
  Notation view := (bool * bool * list (layer P))%type.
  Definition start : view := (false, false, []).

  Lemma decorate_ok : forall (ds : list (deco P)) (g : reg) x f (v : view), Good g x f v -> Bnd g ->
    let '(g', x') := decorate g x ds in Good g' x' f (nexts v ds) /\ Bnd g' /\ only f g g'.
  Proof.
    induction ds as [|d ds IH]; intros g x f v G B; cbn [decorate].
    { split; [exact G|split; [exact B|apply only_refl]]. }
    destruct (Good_facts _ _ _ _ G) as [W [L [R _]]].
    pose proof (Good_apply g x f v d G) as G1; pose proof (apply_ok g x d W L) as A; pose proof (Bnd_apply g x d W L B) as B1.
    destruct (apply g x d) as [g1 x1]; destruct A as [W1 [O1 _]]; rewrite R in O1; cbn [fst] in B1.
    pose proof (IH g1 x1 f (next v d) G1 B1) as H; destruct (decorate g1 x1 ds) as [g' x'].
    destruct H as [H1 [H2 H3]]; split; [|split; [exact H2|exact (only_trans f g g1 g' W O1 H3)]].
    destruct v as [[fb mt] ls]; exact H1.
  Qed.

  Definition defs_t : Type := list (string * option (list (deco P))).
  Definition Vd (defs : defs_t) (n : string) : view :=
    match dget String.eqb defs n with Some (Some ds) => nexts start ds | _ => start end.

  Lemma class_body_ok : forall (defs : defs_t) (g : reg), WF g -> Bnd g -> NoDup (map fst defs) ->
    let '(g', c) := class_body g defs in
    WF g' /\ Bnd g' /\ map fst c = map fst defs /\
    (forall n, shape c n = option_map (fun o => match o with Some _ => true | None => false end) (dget String.eqb defs n)) /\
    exists F, CI g' c F (Vd defs) /\ (forall n x, getattr c n = Some (AFun x) -> F n < length (objs g')).
  Proof.
    induction defs as [|[n o] defs IH]; intros g W B N; cbn [class_body].
    { split; [exact W|split; [exact B|split; [reflexivity|split; [reflexivity|]]]].
      exists (fun _ => 0); split; [constructor; [constructor|discriminate|discriminate]|discriminate]. }
    cbn [map fst] in N; inversion N as [|? ? Ni N']; subst.
    pose proof (IH g W B N') as H; destruct (class_body g defs) as [g1 c].
    destruct H as [W1 [B1 [Nm [Sh [F [I Fl]]]]]].
    assert (Nc : getattr c n = None).
    { destruct (getattr c n) as [a|] eqn:E; [|reflexivity]; exfalso; apply Ni; rewrite <- Nm.
      apply (dget_In _ String.eqb_spec) in E; apply in_map_iff; exists (n, a); auto. }
    assert (Vx : forall m, m <> n -> Vd ((n, o) :: defs) m = Vd defs m).
    { intros m Hm; unfold Vd; cbn [dget]; destruct (String.eqb_spec m n); [contradiction|reflexivity]. }
    destruct o as [ds|].
    - set (f := length (objs g1)).
      assert (W2 : WF (step g1 Def)) by (apply step_WF; exact W1).
      assert (B2 : Bnd (step g1 Def)) by (apply Bnd_new; exact B1).
      assert (G0 : Good (step g1 Def) f f start).
      { exists false; split; [reflexivity|]; cbn [start fst snd]; apply Inv_def; [exact W1| |].
        - destruct (mem (length (objs g1)) (forb g1)) eqn:E; [apply B1 in E; lia|reflexivity].
        - destruct (mem (length (objs g1)) (meth g1)) eqn:E; [apply B1 in E; lia|reflexivity]. }
      pose proof (decorate_ok ds (step g1 Def) f f start G0 B2) as D; destruct (decorate (step g1 Def) f ds) as [g2 x].
      destruct D as [G2 [B3 O3]]; destruct (Good_facts _ _ _ _ G2) as [W3 _].
      destruct (@new_fun_ok P g1 f W1) as [_ O1].
      assert (L1 : length (objs (step g1 Def)) = S f) by (cbn [step new fst objs]; rewrite app_length; unfold f; cbn; lia).
      pose proof (only_len _ _ _ O3) as L2.
      split; [exact W3|split; [exact B3|split; [cbn [map fst]; now rewrite Nm|split]]].
      { intros m; unfold shape, getattr; cbn [dget]; destruct (String.eqb m n); [reflexivity|apply Sh]. }
      exists (fun m => if String.eqb m n then f else F m); split.
      + constructor.
        * cbn [map fst]; constructor; [rewrite Nm; exact Ni|apply I].
        * intros m y Hm; unfold getattr in Hm; cbn [dget] in Hm.
          destruct (String.eqb_spec m n) as [->|Ne].
          { injection Hm as <-; unfold Vd; cbn [dget]; rewrite String.eqb_refl; exact G2. }
          rewrite (Vx m Ne).
          pose proof (Fl m y Hm) as Fm.
          apply (Good_other (step g1 Def) g2 y (F m) (Vd defs m) f); [|exact W3|exact O3|fold f in Fm; lia].
          apply (Good_other g1 (step g1 Def) y (F m) (Vd defs m) f); [exact (ci_good _ _ _ _ I m y Hm)|exact W2|exact O1|fold f in Fm; lia].
        * intros m k y z Ne Hm Hk; unfold getattr in Hm, Hk; cbn [dget] in Hm, Hk.
          destruct (String.eqb_spec m n) as [->|Nm1]; destruct (String.eqb_spec k n) as [->|Nk1]; try contradiction.
          { pose proof (Fl k z Hk); fold f in H; lia. }
          { pose proof (Fl m y Hm); fold f in H; lia. }
          exact (ci_apart _ _ _ _ I m k y z Ne Hm Hk).
      + intros m y Hm; unfold getattr in Hm; cbn [dget] in Hm.
        destruct (String.eqb_spec m n) as [->|Ne]; [unfold f in *; lia|].
        pose proof (Fl m y Hm); fold f in H; lia.
    - split; [exact W1|split; [exact B1|split; [cbn [map fst]; now rewrite Nm|split]]].
      { intros m; unfold shape, getattr; cbn [dget]; destruct (String.eqb m n); [reflexivity|apply Sh]. }
      exists F; split.
      + constructor.
        * cbn [map fst]; constructor; [rewrite Nm; exact Ni|apply I].
        * intros m y Hm; unfold getattr in Hm; cbn [dget] in Hm.
          destruct (String.eqb_spec m n) as [->|Ne]; [discriminate|].
          rewrite (Vx m Ne); exact (ci_good _ _ _ _ I m y Hm).
        * intros m k y z Ne Hm Hk; unfold getattr in Hm, Hk; cbn [dget] in Hm, Hk.
          destruct (String.eqb_spec m n) as [->|Nm1]; [discriminate|]; destruct (String.eqb_spec k n) as [->|Nk1]; [discriminate|].
          exact (ci_apart _ _ _ _ I m k y z Ne Hm Hk).
      + intros m y Hm; unfold getattr in Hm; cbn [dget] in Hm.
        destruct (String.eqb_spec m n) as [->|Ne]; [discriminate|exact (Fl m y Hm)].
  Qed.

  Lemma stacked_nexts : forall ds, stacked ds = snd (nexts start ds).
  Proof.
    assert (M : forall l : list (deco P), mine (map Mine l) = l).
    { intros l; induction l as [|d l IH]; [reflexivity|cbn [map mine]; rewrite IH; reflexivity]. }
    intros ds; unfold stacked.
    assert (A : forall l g c, @apart P 0 g c (map Mine l)).
    { induction l as [|d l IH]; intros g c; [exact Logic.I|]; cbn [map apart]; destruct (apply g c d); apply IH. }
    pose proof (chain_inv (map Mine ds) 0 (step empty Def) 0 false false [] (Inv_start []) (A ds _ _)) as C.
    rewrite M in C; destruct (chain (step empty Def) 0 (map Mine ds)) as [g' cur]; destruct C as [mt' C].
    unfold start; destruct (nexts (false, false, []) ds) as [[fb2 mt2] ls2]; destruct C as [_ C].
    exact (Inv_layers _ _ _ _ _ _ C).
  Qed.
End Bodies.
