(** Lemmas behind the theorems about the text of a tree: full names of nodes, the depth-first walk, the lines. *)
From Verif Require Import Base Tree_Model Tree_Spec Tree_Heap Tree_Ops Tree_Project Tree_Proofs Draw_Model Draw_Spec.
Local Open Scope string_scope.
Local Open Scope list_scope.

(** *** Full names *)
Section Names.
  Context {V : Type}.
  Variable kc : string -> bool.
  Variable vc : V -> bool.
  Implicit Types (h : heap V).

  Definition good (k : string) : bool := no_dot k && kc k.

  (** The names of a node and of its ancestors, from the top. *)
  Inductive fn h : nat -> path -> Prop :=
  | fn_root : forall n, n < length h -> nname (hget h n) = None -> nparent (hget h n) = None -> fn h n []
  | fn_step : forall n p k q, n < length h -> p < n -> nname (hget h n) = Some k -> nparent (hget h n) = Some p -> good k = true ->
      fn h p q -> fn h n (q ++ [k]).

  Definition stable h h' : Prop :=
    length h <= length h' /\ forall i, i < length h -> nname (hget h' i) = nname (hget h i) /\ nparent (hget h' i) = nparent (hget h i).
  Lemma stable_refl : forall h, stable h h.
  Proof. intros h; split; auto. Qed.
  Lemma stable_trans : forall a b c, stable a b -> stable b c -> stable a c.
  Proof.
    intros a b c (L1 & H1) (L2 & H2); split; [lia|]; intros i Hi.
    destruct (H1 i Hi) as [A B]; destruct (H2 i ltac:(lia)) as [C D]; split; congruence.
  Qed.
  Lemma fn_alloc : forall h n q, fn h n q -> n < length h.
  Proof. intros h n q F; destruct F; assumption. Qed.
  Lemma fn_stable : forall h h' n q, stable h h' -> fn h n q -> fn h' n q.
  Proof.
    intros h h' n q (L & E) F; induction F as [n Hn Hk Hr|n p k q Hn Hp Hk Hpar G F IH].
    - destruct (E n Hn) as [E1 E2]; apply fn_root; [lia|congruence|congruence].
    - destruct (E n Hn) as [E1 E2]; apply (fn_step h' n p k q); try congruence; lia.
  Qed.
  Lemma fn_back : forall h h' n q, stable h h' -> n < length h -> fn h' n q -> fn h n q.
  Proof.
    intros h h' n q (L & E) Hn F; revert Hn; induction F as [n Hn' Hk Hr|n p k q Hn' Hp Hk Hpar G F IH]; intros Hn.
    - destruct (E n Hn) as [E1 E2]; apply fn_root; [lia|congruence|congruence].
    - destruct (E n Hn) as [E1 E2]; apply (fn_step h n p k q); try congruence; try lia. apply IH; lia.
  Qed.
  Lemma fn_fun : forall h n q1 q2, fn h n q1 -> fn h n q2 -> q1 = q2.
  Proof.
    intros h n q1 q2 F; revert q2; induction F as [n Hn Hk Hr|n p k q Hn Hp Hk Hpar G F IH]; intros q2 F2; inversion F2; subst; try congruence.
    assert (k0 = k) by congruence; assert (p0 = p) by congruence; subst; f_equal; apply IH; assumption.
  Qed.

  (** Every edge goes from a node to one whose full name is longer by the name of the edge. *)
  Definition J h : Prop :=
    (forall p k c, In (k, c) (nchilds (hget h p)) -> forall q, fn h p q -> fn h c (q ++ [k])) /\
    (forall n, n < length h -> exists q, fn h n q).

  Lemma hset_app : forall h l i n, i < length h -> hset (h ++ l) i n = hset h i n ++ l.
  Proof.
    induction h as [|x r IH]; intros l [|i] n H; cbn [length hset app] in *; try lia; [reflexivity|].
    rewrite IH by lia; reflexivity.
  Qed.
  Lemma set_childs_app : forall h l i cs, i < length h -> set_childs (h ++ l) i cs = set_childs h i cs ++ l.
  Proof. intros h l i cs H; unfold set_childs; rewrite hget_app_old, hset_app by exact H; reflexivity. Qed.

  Lemma stable_set_childs : forall h x cs, stable h (set_childs h x cs).
  Proof. intros h x cs; split; [rewrite length_set_childs; lia|]; intros i _; rewrite nname_set_childs, nparent_set_childs; auto. Qed.
  Lemma stable_set_val : forall h x v, stable h (set_val h x v).
  Proof. intros h x v; split; [rewrite length_set_val; lia|]; intros i _; rewrite nname_set_val, nparent_set_val; auto. Qed.
  Lemma stable_app : forall h n, stable h (h ++ [n]).
  Proof. intros h n; split; [rewrite app_length; lia|]; intros i Hi; rewrite hget_app_old by exact Hi; auto. Qed.

  Lemma J_set_childs : forall h x cs, J h -> x < length h ->
    (forall k c, In (k, c) cs -> In (k, c) (nchilds (hget h x)) \/ forall q, fn h x q -> fn h c (q ++ [k])) ->
    J (set_childs h x cs).
  Proof.
    intros h x cs (J1 & J2) Hx Hcs; pose proof (stable_set_childs h x cs) as S0.
    assert (Hl : length (set_childs h x cs) = length h) by apply length_set_childs.
    split.
    - intros p k c Hi q F.
      assert (Hp : p < length h) by (rewrite <- Hl; exact (fn_alloc _ _ _ F)).
      apply (fn_back _ _ _ _ S0 Hp) in F; apply (fn_stable _ _ _ _ S0).
      destruct (Nat.eq_dec x p) as [->|N].
      + rewrite nchilds_set_childs_same in Hi by exact Hp.
        destruct (Hcs k c Hi) as [A|A]; [apply (J1 p k c A q F)|apply (A q F)].
      + rewrite nchilds_set_childs_other in Hi by exact N; apply (J1 p k c Hi q F).
    - intros n Hn; rewrite Hl in Hn; destruct (J2 n Hn) as (q & F); exists q; apply (fn_stable _ _ _ _ S0 F).
  Qed.
  Lemma J_set_val : forall h x v, J h -> J (set_val h x v).
  Proof.
    intros h x v (J1 & J2); pose proof (stable_set_val h x v) as S0.
    assert (Hl : length (set_val h x v) = length h) by apply length_set_val.
    split.
    - intros p k c Hi q F; rewrite nchilds_set_val in Hi.
      assert (Hp : p < length h) by (rewrite <- Hl; exact (fn_alloc _ _ _ F)).
      apply (fn_stable _ _ _ _ S0); apply (J1 p k c Hi q); apply (fn_back _ _ _ _ S0 Hp F).
    - intros n Hn; rewrite Hl in Hn; destruct (J2 n Hn) as (q & F); exists q; apply (fn_stable _ _ _ _ S0 F).
  Qed.
  Lemma J_app : forall h par nam, J h ->
    (exists q, fn (h ++ [mkNode None [] par nam]) (length h) q) -> J (h ++ [mkNode None [] par nam]).
  Proof.
    intros h par nam (J1 & J2) (qn & Fn); set (nd := mkNode None [] par nam) in *; pose proof (stable_app h nd) as S0.
    split.
    - intros p k c Hi q F.
      assert (Hp : p < length h).
      { destruct (Nat.lt_ge_cases p (length h)) as [L|L]; [exact L|].
        pose proof (fn_alloc _ _ _ F) as A; rewrite app_length in A; cbn [length] in A.
        assert (p = length h) as -> by lia; rewrite hget_app_new in Hi; destruct Hi. }
      rewrite hget_app_old in Hi by exact Hp.
      apply (fn_stable _ _ _ _ S0), (J1 p k c Hi q), (fn_back _ _ _ _ S0 Hp F).
    - intros n Hn; rewrite app_length in Hn; cbn [length] in Hn.
      destruct (Nat.eq_dec n (length h)) as [->|N]; [exists qn; exact Fn|].
      destruct (J2 n ltac:(lia)) as (q & F); exists q; apply (fn_stable _ _ _ _ S0 F).
  Qed.

  Lemma In_dset : forall (d : list (string * nat)) k c k' c', In (k', c') (dset String.eqb d k c) -> In (k', c') d \/ (k' = k /\ c' = c).
  Proof.
    induction d as [|[a b] d IH]; intros k c k' c'; cbn [dset].
    - intros [E|[]]; injection E as <- <-; auto.
    - destruct (String.eqb_spec k a) as [->|N].
      + intros [E|E]; [injection E as <- <-; auto|left; right; exact E].
      + intros [E|E]; [left; left; exact E|]. destruct (IH _ _ _ _ E) as [A|A]; [left; right; exact A|auto].
  Qed.

  Lemma create_child_J : forall h x k, J h -> x < length h -> good k = true ->
    let h' := fst (create_child h x k) in
    J h' /\ stable h h' /\ snd (create_child h x k) = length h /\ (forall q, fn h x q -> fn h' (length h) (q ++ [k])).
  Proof.
    intros h x k Jh Hx G; unfold create_child; cbn [fst snd].
    rewrite <- set_childs_app by exact Hx.
    set (nd := mkNode None [] (Some x) (Some k)).
    pose proof (stable_app h nd) as S0.
    assert (FN : forall q, fn h x q -> fn (h ++ [nd]) (length h) (q ++ [k])).
    { intros q F; apply (fn_step _ _ x k q); try (rewrite hget_app_new; reflexivity); try exact G; try exact Hx.
      - rewrite app_length; cbn [length]; lia.
      - apply (fn_stable _ _ _ _ S0 F). }
    assert (J (h ++ [nd])) as J1.
    { apply J_app; [exact Jh|]; destruct (proj2 Jh x Hx) as (q & F); exists (q ++ [k]); apply FN, F. }
    assert (Hx' : x < length (h ++ [nd])) by (rewrite app_length; lia).
    split; [|split; [|split; [reflexivity|]]].
    - apply J_set_childs; [exact J1|exact Hx'|].
      intros k' c' Hi; apply In_dset in Hi; destruct Hi as [Hi|[-> ->]].
      + left; rewrite hget_app_old by exact Hx; exact Hi.
      + right; intros q F; apply FN, (fn_back _ _ _ _ S0 Hx F).
    - apply (stable_trans _ (h ++ [nd])); [exact S0|apply stable_set_childs].
    - intros q F; apply (fn_stable _ _ _ _ (stable_set_childs _ _ _)), FN, F.
  Qed.

  Lemma walk_create_J : forall ks h x q, J h -> fn h x q -> forallb good ks = true ->
    let h' := fst (walk_create h x ks) in
    J h' /\ stable h h' /\ fn h' (snd (walk_create h x ks)) (q ++ ks).
  Proof.
    induction ks as [|k ks IH]; intros h x q Jh F G; cbn [walk_create].
    - rewrite app_nil_r; split; [exact Jh|split; [apply stable_refl|exact F]].
    - cbn [forallb] in G; apply andb_prop in G; destruct G as [Gk G].
      replace (q ++ k :: ks) with ((q ++ [k]) ++ ks) by (rewrite <- app_assoc; reflexivity).
      destruct (dget String.eqb (nchilds (hget h x)) k) as [c|] eqn:E.
      + apply (dget_In String.eqb String.eqb_spec) in E.
        apply IH; [exact Jh|apply (proj1 Jh x k c E q F)|exact G].
      + destruct (create_child_J h x k Jh (fn_alloc _ _ _ F) Gk) as (J1 & S1 & Ec & F1).
        destruct (create_child h x k) as [h1 c]; cbn [fst snd] in *; subst c.
        destruct (IH h1 (length h) (q ++ [k]) J1 (F1 q F) G) as (J2 & S2 & F2).
        split; [exact J2|split; [apply (stable_trans _ h1); assumption|exact F2]].
  Qed.

  Lemma put_walk_J : forall ks h x q n, J h -> fn h x q -> fn h n (q ++ ks) -> forallb good ks = true ->
    J (put_walk h x ks n) /\ stable h (put_walk h x ks n).
  Proof.
    induction ks as [|k ks IH]; intros h x q n Jh F Fn G.
    - split; [exact Jh|apply stable_refl].
    - cbn [forallb] in G; apply andb_prop in G; destruct G as [Gk G].
      destruct ks as [|k2 ks].
      + cbn [put_walk]; split; [|apply stable_set_childs].
        apply J_set_childs; [exact Jh|apply (fn_alloc _ _ _ F)|].
        intros k' c' Hi; apply In_dset in Hi; destruct Hi as [Hi|[-> ->]]; [left; exact Hi|right].
        intros q' F'; rewrite (fn_fun _ _ _ _ F' F); exact Fn.
      + change (put_walk h x (k :: k2 :: ks) n) with
          (match dget String.eqb (nchilds (hget h x)) k with
           | Some c => put_walk h c (k2 :: ks) n
           | None => let (h', c) := create_child h x k in put_walk h' c (k2 :: ks) n
           end).
        assert (Fn' : fn h n ((q ++ [k]) ++ k2 :: ks)) by (rewrite <- app_assoc; exact Fn).
        destruct (dget String.eqb (nchilds (hget h x)) k) as [c|] eqn:E.
        * apply (dget_In String.eqb String.eqb_spec) in E.
          apply (IH h c (q ++ [k])); [exact Jh|apply (proj1 Jh x k c E q F)|exact Fn'|exact G].
        * destruct (create_child_J h x k Jh (fn_alloc _ _ _ F) Gk) as (J1 & S1 & Ec & F1).
          destruct (create_child h x k) as [h1 c]; cbn [fst snd] in *; subst c.
          destruct (IH h1 (length h) (q ++ [k]) n J1 (F1 q F) (fn_stable _ _ _ _ S1 Fn') G) as (J2 & S2).
          split; [exact J2|apply (stable_trans _ h1); assumption].
  Qed.

  Lemma In_ddel : forall (d : list (string * nat)) k x, In x (ddel String.eqb d k) -> In x d.
  Proof.
    induction d as [|[a b] d IH]; intros k x; cbn [ddel]; [auto|].
    destruct (String.eqb k a); [intros H; right; exact H|].
    intros [E|E]; [left; exact E|right; apply (IH k x E)].
  Qed.
  Lemma In_fold_ddel : forall names (d : list (string * nat)) x, In x (fold_left (ddel String.eqb) names d) -> In x d.
  Proof. induction names as [|k r IH]; intros d x H; [exact H|]; cbn [fold_left] in H; apply IH in H; apply (In_ddel _ _ _ H). Qed.

  Lemma cut_J : forall fuel h n b h', J h -> n < length h -> cut fuel h n b = Ok h' -> J h' /\ stable h h'.
  Proof.
    induction fuel as [|f IH]; intros h n b h' Jh Hn E; [discriminate|].
    cbn [cut] in E; destruct (nparent (hget h n)) as [p|] eqn:Ep.
    - destruct (scan h b (nchilds (hget h p))) as [| |names]; [discriminate|injection E as <-; split; [exact Jh|apply stable_refl]|].
      destruct (Nat.lt_ge_cases p (length h)) as [Hp|Hp].
      + pose proof (stable_set_childs h p (fold_left (ddel String.eqb) names (nchilds (hget h p)))) as S1.
        destruct (IH _ p b h' (J_set_childs h p _ Jh Hp (fun k c Hi => or_introl (In_fold_ddel names _ (k, c) Hi)))
                    ltac:(rewrite length_set_childs; exact Hp) E) as (J2 & S2).
        split; [exact J2|apply (stable_trans _ _ _ S1 S2)].
      + exfalso; destruct (proj2 Jh n Hn) as (q & F); inversion F; subst; try congruence.
        assert (p0 = p) by congruence; lia.
    - injection E as <-; split; [exact Jh|apply stable_refl].
  Qed.

  Lemma keys_good : forall k keys, get_converted_keys kc k = Ok keys -> k <> KStr sep -> forallb good keys = true.
  Proof.
    intros [s|] keys E N; [|discriminate]; unfold get_converted_keys in E.
    destruct (String.eqb_spec s sep) as [->|_]; [congruence|].
    destruct (forallb kc (split_on dot s)) eqn:Ek; [|discriminate]; injection E as <-.
    pose proof (split_no_dot s) as D; revert Ek D; generalize (split_on dot s); intros l; induction l as [|a l IH]; [reflexivity|].
    cbn [forallb]; rewrite !andb_true_iff; unfold good at 1; intros [A B] [C D]; rewrite A, C; auto.
  Qed.

  Lemma soc_J : forall h x k keys, J h -> fn h x [] -> get_converted_keys kc k = Ok keys ->
    let h' := fst (search_or_create_node h x keys) in
    J h' /\ stable h h' /\ exists q, fn h' (snd (search_or_create_node h x keys)) q /\ (k <> KStr sep -> q = keys).
  Proof.
    intros h x k keys Jh F E.
    assert ({k = KStr sep} + {k <> KStr sep}) as [->|N].
    { destruct k as [s|]; [destruct (string_dec s sep) as [->|N]; [left; reflexivity|right; congruence]|right; discriminate]. }
    - injection E as <-; cbn [search_or_create_node fst snd].
      split; [exact Jh|split; [apply stable_refl|]]; exists []; split; [exact F|congruence].
    - pose proof (keys_good k keys E N) as G.
      rewrite search_or_create_path.
      + destruct (walk_create_J keys h x [] Jh F G) as (A & B & C).
        split; [exact A|split; [exact B|]]; exists keys; split; [exact C|reflexivity].
      + clear - G; induction keys as [|a l IH]; [reflexivity|]; cbn [forallb] in *; apply andb_prop in G; destruct G as [G1 G2].
        unfold good in G1; apply andb_prop in G1; destruct G1 as [G1 _]; rewrite G1; apply IH, G2.
  Qed.

  Lemma project_loop_J : forall ks h src t, J h -> fn h src [] -> fn h t [] ->
    let h' := fst (project_loop kc h src t ks) in
    J h' /\ stable h h' /\ forall r, snd (project_loop kc h src t ks) = Ok r -> r = t.
  Proof.
    induction ks as [|k ks IH]; intros h src t Jh F Ft; cbn [project_loop].
    - split; [exact Jh|split; [apply stable_refl|intros r E; injection E as <-; reflexivity]].
    - destruct (match k with KStr s => String.eqb s sep | KOther => false end) eqn:Es.
      { split; [exact Jh|split; [apply stable_refl|discriminate]]. }
      assert (Nk : k <> KStr sep) by (intros ->; cbn in Es; discriminate).
      destruct (get_converted_keys kc k) as [keys|e] eqn:Ek; [|split; [exact Jh|split; [apply stable_refl|discriminate]]].
      destruct (soc_J h src k keys Jh F Ek) as (J1 & S1 & q & Fq & Eq); specialize (Eq Nk); subst q.
      destruct (search_or_create_node h src keys) as [h1 n]; cbn [fst snd] in *.
      unfold put_node; destruct k as [s|]; [|discriminate].
      rewrite Es, Ek.
      destruct (put_walk_J keys h1 t [] n J1 (fn_stable _ _ _ _ S1 Ft) Fq (keys_good _ _ Ek Nk)) as (J2 & S2).
      pose proof (stable_trans _ _ _ S1 S2) as S3.
      destruct (IH (put_walk h1 t keys n) src t J2 (fn_stable _ _ _ _ S3 F) (fn_stable _ _ _ _ S3 Ft)) as (J4 & S4 & R4).
      split; [exact J4|split; [apply (stable_trans _ _ _ S3 S4)|exact R4]].
  Qed.

  Lemma project_J : forall ks h src, J h -> fn h src [] ->
    let h' := fst (project kc h src ks) in
    J h' /\ stable h h' /\ forall r, snd (project kc h src ks) = Ok r -> fn h' r [].
  Proof.
    intros ks h src Jh F; unfold project, new_root; set (nd := mkNode None [] None None).
    assert (F1 : fn (h ++ [nd]) (length h) []).
    { apply fn_root; [rewrite app_length; cbn [length]; lia| |]; rewrite hget_app_new; reflexivity. }
    assert (J1 : J (h ++ [nd])) by (apply J_app; [exact Jh|exists []; exact F1]).
    pose proof (stable_app h nd) as S1.
    destruct (project_loop_J ks (h ++ [nd]) src (length h) J1 (fn_stable _ _ _ _ S1 F) F1) as (J2 & S2 & R).
    split; [exact J2|split; [apply (stable_trans _ _ _ S1 S2)|]].
    intros r E; rewrite (R r E); apply (fn_stable _ _ _ _ S2 F1).
  Qed.

  Lemma step_J : forall h o, J h -> fn h 0 [] -> J (fst (tree_step kc vc h o)) /\ stable h (fst (tree_step kc vc h o)).
  Proof.
    intros h o Jh F; destruct o as [k v|k|k|k| |ks]; cbn [tree_step].
    - unfold tree_set; destruct k as [s|]; [|split; [exact Jh|apply stable_refl]]; destruct v as [v|]; [|split; [exact Jh|apply stable_refl]].
      destruct (vc v); [|split; [exact Jh|apply stable_refl]].
      destruct (get_converted_keys kc (KStr s)) as [keys|e] eqn:Ek; [|split; [exact Jh|apply stable_refl]].
      destruct (soc_J h 0 (KStr s) keys Jh F Ek) as (J1 & S1 & _); destruct (search_or_create_node h 0 keys) as [h1 n]; cbn [fst snd] in *.
      split; [apply J_set_val, J1|apply (stable_trans _ _ _ S1), stable_set_val].
    - destruct (tree_del kc h 0 k) as [h'|e] eqn:E; [|split; [exact Jh|apply stable_refl]]; cbn [fst].
      unfold tree_del in E; destruct k as [s|]; [|discriminate].
      destruct (get_converted_keys kc (KStr s)) as [keys|e]; [|discriminate].
      destruct (search_node h 0 keys) as [n|]; [|discriminate].
      destruct (nval (hget h n)) as [v|] eqn:Ev; [|discriminate].
      assert (Hn : n < length h).
      { destruct (Nat.lt_ge_cases n (length h)) as [L|L]; [exact L|]; rewrite hget_out in Ev by exact L; discriminate. }
      destruct (cut_J _ _ n 0 h' (J_set_val h n None Jh) ltac:(rewrite length_set_val; exact Hn) E) as (A & B).
      split; [exact A|apply (stable_trans _ _ _ (stable_set_val h n None) B)].
    - destruct (tree_get kc h 0 k); (split; [exact Jh|apply stable_refl]).
    - destruct (tree_getitem kc h 0 k); (split; [exact Jh|apply stable_refl]).
    - destruct (tree_len h 0); (split; [exact Jh|apply stable_refl]).
    - destruct (project_J ks h 0 Jh F) as (A & B & _); destruct (project kc h 0 ks) as [h' [r|e]]; cbn [fst] in *; auto.
  Qed.

  Lemma final_J : forall ops h, J h -> fn h 0 [] ->
    J (final (tree_step kc vc) h ops) /\ stable h (final (tree_step kc vc) h ops).
  Proof.
    induction ops as [|o ops IH]; intros h Jh F; [split; [exact Jh|apply stable_refl]|].
    destruct (step_J h o Jh F) as (J1 & S1); unfold final; cbn [fold_left].
    destruct (IH _ J1 (fn_stable _ _ _ _ S1 F)) as (J2 & S2); split; [exact J2|apply (stable_trans _ _ _ S1 S2)].
  Qed.

  Lemma empty_fn : fn (tree_empty (V := V)) 0 [].
  Proof. apply fn_root; [cbn; lia|reflexivity|reflexivity]. Qed.
  Lemma empty_J : J (tree_empty (V := V)).
  Proof.
    split.
    - intros [|[|p]] k c Hi; destruct Hi.
    - intros n Hn; cbn in Hn; assert (n = 0) as -> by lia; exists []; apply empty_fn.
  Qed.

  (** *** The line of a node *)
  Lemma walk_fn : forall h p x n q, J h -> fn h x q -> walk h x p = Some n -> fn h n (q ++ p).
  Proof.
    intros h p; induction p as [|k p IH]; intros x n q Jh F E; cbn [walk] in E.
    - injection E as ->; rewrite app_nil_r; exact F.
    - destruct (dget String.eqb (nchilds (hget h x)) k) as [c|] eqn:Ec; [|discriminate].
      apply (dget_In String.eqb String.eqb_spec) in Ec.
      replace (q ++ k :: p) with ((q ++ [k]) ++ p) by (rewrite <- app_assoc; reflexivity).
      apply (IH c n _ Jh); [apply (proj1 Jh x k c Ec q F)|exact E].
  Qed.

  Lemma climb_fn : forall h n q, fn h n q -> forall f, n <= f -> climb f h n = Some (rev q).
  Proof.
    intros h n q F; induction F as [n Hn Hk Hr|n p k q Hn Hp Hk Hpar G F IH]; intros f Hf.
    - destruct f; cbn [climb]; rewrite Hk; reflexivity.
    - destruct f as [|f]; [lia|]; cbn [climb]; rewrite Hk, Hpar, IH by lia; rewrite rev_app_distr; reflexivity.
  Qed.
  Lemma fn_good : forall h n q, fn h n q -> forallb good q = true.
  Proof.
    intros h n q F; induction F as [n Hn Hk Hr|n p k q Hn Hp Hk Hpar G F IH]; [reflexivity|].
    rewrite forallb_app, IH; cbn [forallb]; rewrite G; reflexivity.
  Qed.
  Lemma fn_name : forall h n q, fn h n q -> nname (hget h n) = match rev q with [] => None | k :: _ => Some k end.
  Proof.
    intros h n q F; destruct F as [n Hn Hk Hr|n p k q Hn Hp Hk Hpar G F]; [exact Hk|].
    rewrite rev_app_distr; exact Hk.
  Qed.
End Names.

Lemma count_app : forall c a b, count_char c (a ++ b)%string = count_char c a + count_char c b.
Proof. intros c a b; induction a as [|x a IH]; [reflexivity|]; cbn [append count_char]; rewrite IH; lia. Qed.
Lemma no_dot_count : forall s, no_dot s = true -> count_char dot s = 0.
Proof.
  induction s as [|a s IH]; [reflexivity|]; cbn [no_dot count_char]; intros H; apply andb_prop in H; destruct H as [H1 H2].
  apply negb_true_iff in H1; rewrite H1, IH by exact H2; reflexivity.
Qed.
Lemma concat_cons2 : forall s a b r, String.concat s (a :: b :: r) = (a ++ s ++ String.concat s (b :: r))%string.
Proof. reflexivity. Qed.
Lemma count_concat : forall q, forallb no_dot q = true -> count_char dot (String.concat sep q) = length q - 1.
Proof.
  induction q as [|a q IH]; [reflexivity|]; cbn [forallb]; intros H; apply andb_prop in H; destruct H as [H1 H2].
  destruct q as [|b r].
  - cbn [String.concat length]; rewrite no_dot_count by exact H1; reflexivity.
  - rewrite concat_cons2, !count_app, (no_dot_count a H1), (IH H2); cbn [length count_char]; unfold sep; cbn; lia.
Qed.
Lemma concat_not_sep : forall q, q <> [] -> forallb no_dot q = true -> ~ In "" q -> String.concat sep q <> sep.
Proof.
  intros [|a [|b r]] N D E; [congruence| |].
  - cbn [String.concat]; intros ->; cbn in D; discriminate.
  - rewrite concat_cons2; intros H; destruct a as [|x a]; [apply E; left; reflexivity|].
    cbn [append] in H; injection H as _ H; destruct a; [|discriminate]; cbn in H; discriminate.
Qed.

Section Lines.
  Context {V : Type}.
  Variable kc : string -> bool.
  Variable vc : V -> bool.
  Hypothesis kc_empty : kc "" = false.
  Implicit Types (h : heap V).

  Lemma last_rev : forall (q : path) d, last q d = match rev q with [] => d | k :: _ => k end.
  Proof.
    intros q d; destruct q as [|k q _] using rev_ind; [reflexivity|].
    rewrite rev_app_distr, last_last; reflexivity.
  Qed.
  Lemma good_split : forall q, forallb (good kc) q = true -> forallb no_dot q = true /\ ~ In "" q.
  Proof.
    induction q as [|a q IH]; [intros _; split; [reflexivity|intros []]|]; cbn [forallb]; intros H.
    apply andb_prop in H; destruct H as [H1 H2]; unfold good in H1; apply andb_prop in H1; destruct H1 as [H0 H1].
    destruct (IH H2) as [A B]; rewrite H0, A; split; [reflexivity|]; intros [->|C]; [congruence|exact (B C)].
  Qed.

  Lemma line_is : forall p, line p = (times (length p) (String tab "") ++ opening ++ last p "." ++ closing)%string.
  Proof.
    intros p; unfold line; assert (tabs (length p) = times (length p) (String tab "")) as ->; [|reflexivity].
    induction (length p) as [|n IH]; [reflexivity|]; cbn [tabs times append]; rewrite IH; reflexivity.
  Qed.
  Lemma node_line_fn : forall h n q, fn kc h n q -> node_line h n = Some (line q).
  Proof.
    intros h n q F; unfold node_line, get_full_name.
    rewrite (climb_fn kc h n q F) by (apply Nat.lt_le_incl, (fn_alloc _ _ _ _ F)).
    rewrite (fn_name _ _ _ _ F); destruct (good_split q (fn_good _ _ _ _ F)) as [D E].
    rewrite line_is, last_rev; destruct q as [|k q _] using rev_ind.
    - reflexivity.
    - assert (String.concat sep (q ++ [k]) <> sep) as N.
      { apply concat_not_sep; [intros X; symmetry in X; exact (app_cons_not_nil _ _ _ X)|exact D|exact E]. }
      rewrite rev_app_distr; cbn [rev app]. rewrite rev_involutive.
      destruct (String.eqb_spec (String.concat sep (q ++ [k])) sep) as [X|_]; [contradiction|].
      rewrite count_concat by exact D; rewrite app_length; cbn [length].
      replace (length q + 1 - 1 + 1) with (length q + 1) by lia; reflexivity.
  Qed.

  (** *** The depth-first walk with paths *)
  Fixpoint dfsp (fuel : nat) h (p : path) (n : nat) : option (list (path * nat)) :=
    match fuel with
    | 0 => None
    | S f => match gather (map (fun kc => dfsp f h (p ++ [fst kc]) (snd kc)) (nchilds (hget h n))) with
             | Some l => Some ((p, n) :: l)
             | None => None
             end
    end.
  Lemma dfs_dfsp : forall fuel h p n, dfs fuel h n = match dfsp fuel h p n with Some l => Some (map snd l) | None => None end.
  Proof.
    induction fuel as [|f IH]; intros h p n; [reflexivity|]; cbn [dfs dfsp].
    assert (forall cs, gather (map (dfs f h) (dvals cs)) =
              match gather (map (fun kc0 => dfsp f h (p ++ [fst kc0]) (snd kc0)) cs) with Some l => Some (map snd l) | None => None end) as E.
    { induction cs as [|[k c] r IHc]; [reflexivity|]; cbn [dvals map gather fst snd]; rewrite (IH h (p ++ [k]) c).
      destruct (dfsp f h (p ++ [k]) c); [|reflexivity]; unfold dvals in IHc; rewrite IHc.
      destruct (gather (map (fun kc0 => dfsp f h (p ++ [fst kc0]) (snd kc0)) r)); [|reflexivity]; rewrite map_app; reflexivity. }
    rewrite E; destruct (gather (map (fun kc0 => dfsp f h (p ++ [fst kc0]) (snd kc0)) (nchilds (hget h n)))); reflexivity.
  Qed.

  Lemma preorder_app : forall l1 a l2, preorder a l1 -> preorder (last l1 a) l2 -> preorder a (l1 ++ l2).
  Proof.
    induction l1 as [|b l1 IH]; intros a l2 H1 H2; [exact H2|].
    cbn [app preorder] in *; destruct H1 as [A B]; split; [exact A|]; apply IH; [exact B|].
    destruct l1 as [|c l1]; [exact H2|]; replace (last (c :: l1) b) with (last (c :: l1) a); [exact H2|].
    clear; revert c; induction l1 as [|d l1 IH]; intros c; [reflexivity|]; exact (IH d).
  Qed.

  Lemma last_app : forall {A} (a b : list A) x, last (a ++ b) x = last b (last a x).
  Proof.
    intros A a b x; destruct b as [|y b _] using rev_ind; [rewrite app_nil_r; reflexivity|].
    rewrite app_assoc, !last_last; reflexivity.
  Qed.
  Lemma dfsp_spec : forall loc fuel h p n, WF loc h -> n < length h ->
    (forall q m, walk h n q = Some m -> length q < fuel) ->
    exists l, dfsp fuel h p n = Some ((p, n) :: l) /\ NoDup (map fst ((p, n) :: l)) /\
      (forall q m, In (q, m) ((p, n) :: l) <-> exists s, q = p ++ s /\ walk h n s = Some m) /\
      preorder p (map fst l).
  Proof.
    intros loc fuel; induction fuel as [|f IH]; intros h p n W Hn Hf.
    { specialize (Hf [] n eq_refl); cbn in Hf; lia. }
    cbn [dfsp].
    assert (G : forall cs, NoDup (dkeys cs) -> (forall k c, In (k, c) cs -> edge h n k c) ->
      exists l, gather (map (fun kc0 => dfsp f h (p ++ [fst kc0]) (snd kc0)) cs) = Some l /\ NoDup (map fst l) /\
        (forall q m, In (q, m) l <-> exists k c s, In (k, c) cs /\ q = p ++ k :: s /\ walk h c s = Some m) /\
        (forall a, prefix p a -> preorder a (map fst l) /\ prefix p (last (map fst l) a))).
    { induction cs as [|[k c] cs IHc]; intros Nd He.
      - exists []; cbn [map gather]; split; [reflexivity|]; split; [constructor|]; split.
        + intros q m; split; [intros []|intros (k & c & s & [] & _)].
        + intros a Ha; split; [exact Logic.I|exact Ha].
      - cbn [dkeys map fst] in Nd; inversion Nd as [|x l0 Hni Nd']; subst.
        destruct (IHc Nd') as (l2 & E2 & N2 & I2 & P2); [intros k' c' H; apply He; right; exact H|].
        assert (Ed : edge h n k c) by (apply He; left; reflexivity).
        destruct (IH h (p ++ [k]) c W) as (l1 & E1 & N1 & I1 & P1).
        { apply (wf_edge_alloc _ _ W _ _ _ Ed). }
        { intros q m Hq; assert (length (k :: q) < S f) as L; [|cbn [length] in L; lia].
          apply (Hf (k :: q) m), walk_cons; exists c; auto. }
        exists (((p ++ [k], c) :: l1) ++ l2); cbn [map gather fst snd]; rewrite E1, E2; split; [reflexivity|].
        assert (I1' : forall q m, In (q, m) ((p ++ [k], c) :: l1) <-> exists s, q = p ++ k :: s /\ walk h c s = Some m).
        { intros q m; rewrite I1; split; intros (s & A & B); exists s; (split; [|exact B]); rewrite A, <- app_assoc; reflexivity. }
        split; [|split].
        + rewrite map_app; apply NoDup_app_disj; [exact N1|exact N2|].
          intros x H1 H2; apply in_map_iff in H1; destruct H1 as ([x1 m1] & <- & H1); apply I1' in H1; destruct H1 as (s1 & A1 & _).
          apply in_map_iff in H2; destruct H2 as ([x2 m2] & X2 & H2); apply I2 in H2; destruct H2 as (k2 & c2 & s2 & Hi & A2 & _).
          cbn [fst] in X2; rewrite A1, A2 in X2; apply app_inv_head in X2; injection X2 as -> _.
          apply Hni; unfold dkeys; change k with (fst (k, c2)); apply in_map; exact Hi.
        + intros q m; rewrite in_app_iff, I1', I2; split.
          * intros [(s & A & B)|(k' & c' & s & A & B)]; [exists k, c, s; split; [left; reflexivity|auto]|exists k', c', s; split; [right; exact A|exact B]].
          * intros (k' & c' & s & [X|A] & B & C); [injection X as <- <-; left; exists s; auto|right; exists k', c', s; auto].
        + intros a Ha; rewrite map_app.
          set (seg := map fst ((p ++ [k], c) :: l1)).
          assert (Lx : forall x, prefix p (last seg x)).
          { intros x; assert (In (last seg x) seg) as Hi.
            { assert (seg <> []) as Ns by (unfold seg; discriminate); destruct (exists_last Ns) as (y & z & ->).
              rewrite last_last; apply in_or_app; right; left; reflexivity. }
            unfold seg in Hi at 2; apply in_map_iff in Hi; destruct Hi as ([x1 m1] & X & Hi); apply I1' in Hi; destruct Hi as (s & A & _).
            cbn [fst] in X; exists (k :: s); congruence. }
          destruct (P2 (last seg a) (Lx a)) as [Q1 Q2]. split.
          * apply preorder_app; [|exact Q1]. unfold seg; cbn [map fst preorder]; split; [exists p, k; split; [exact Ha|reflexivity]|exact P1].
          * rewrite last_app; exact Q2. }
    destruct (G (nchilds (hget h n))) as (l & E & Nd & Hin & P).
    { apply (wf_nodup _ _ W). }
    { intros k c Hi; unfold edge; apply (In_dget String.eqb String.eqb_spec); [apply (wf_nodup _ _ W)|exact Hi]. }
    exists l; rewrite E; split; [reflexivity|].
    assert (Hin' : forall q m, In (q, m) ((p, n) :: l) <-> exists s, q = p ++ s /\ walk h n s = Some m).
    { intros q m; cbn [In]; rewrite Hin; split.
      - intros [X|(k & c & s & Hi & -> & Hw)].
        + injection X as <- <-; exists []; rewrite app_nil_r; auto.
        + exists (k :: s); split; [reflexivity|]; apply walk_cons; exists c; split; [|exact Hw].
          unfold edge; apply (In_dget String.eqb String.eqb_spec); [apply (wf_nodup _ _ W)|exact Hi].
      - intros ([|k s] & -> & Hw).
        + cbn [walk] in Hw; injection Hw as <-; rewrite app_nil_r; left; reflexivity.
        + right; apply walk_cons in Hw; destruct Hw as (c & Ed & Hw); exists k, c, s; split; [|auto].
          apply (dget_In String.eqb String.eqb_spec); exact Ed. }
    split; [|split; [exact Hin'|]].
    - cbn [map fst]; constructor; [|exact Nd]; intros Hi; apply in_map_iff in Hi; destruct Hi as ([q m] & X & Hi); cbn [fst] in X; subst q.
      apply Hin in Hi; destruct Hi as (k & c & s & _ & X & _).
      rewrite <- (app_nil_r p) in X at 1; apply app_inv_head in X; discriminate.
    - apply P; exists []; rewrite app_nil_r; reflexivity.
  Qed.

  Lemma all_lines_map : forall h l, (forall q m, In (q, m) l -> fn kc h m q) -> all_lines h (map snd l) = Some (map line (map fst l)).
  Proof.
    intros h l; induction l as [|[q m] l IH]; intros H; [reflexivity|]; cbn [map all_lines fst snd].
    rewrite (node_line_fn h m q (H q m (or_introl eq_refl))), IH; [reflexivity|]; intros q' m' Hi; apply H; right; exact Hi.
  Qed.

  (** The text of the tree at any root without a name. *)
  Lemma tree_str_spec : forall loc h r, WF loc h -> J kc h -> fn kc h r [] ->
    (barren h r -> tree_str h r = Ok empty_text) /\
    (~ barren h r -> exists l : list path,
       tree_str h r = Ok (first_line ++ String.concat (String nl "") (map line ([] :: l)) ++ ">")%string /\
       NoDup ([] :: l) /\ (forall q, In q ([] :: l) <-> walk h r q <> None) /\ preorder [] l /\ forallb (forallb (good kc)) l = true).
  Proof.
    intros loc h r W Jh F; pose proof (fn_alloc _ _ _ _ F) as Hr.
    destruct (tree_len_spec loc h r W Hr) as (n & En & B); unfold tree_str; rewrite En; split.
    - intros Hb; apply B in Hb; subst n; reflexivity.
    - intros Hb; destruct n as [|n]; [exfalso; apply Hb, B; reflexivity|].
      destruct (dfsp_spec loc (fuel_of h) h [] r W Hr) as (l & E & Nd & Hin & P).
      { intros q m Hq; apply (walk_length _ _ _ _ _ W Hr) in Hq; unfold fuel_of; lia. }
      assert (Hfn : forall q m, In (q, m) (([], r) :: l) -> fn kc h m q).
      { intros q m Hi; apply Hin in Hi; destruct Hi as (s & -> & Hw); apply (walk_fn kc h s r m [] Jh F Hw). }
      rewrite (dfs_dfsp _ _ []), E; cbv beta iota.
      exists (map fst l); split; [pose proof (all_lines_map h _ Hfn) as AL; unfold path in *; rewrite AL; reflexivity|]; split; [exact Nd|]; split; [|split; [exact P|]].
      + intros q; change ([] :: map fst l) with (map fst (([], r) :: l)); rewrite in_map_iff; split.
        * intros ([q' m] & X & Hi); cbn [fst] in X; subst q'; apply Hin in Hi; destruct Hi as (s & -> & Hw); cbn [app]; congruence.
        * intros Hw; destruct (walk h r q) as [m|] eqn:Ew; [|congruence]; exists (q, m); split; [reflexivity|]; apply Hin; exists q; auto.
      + apply forallb_forall; intros q Hq; apply in_map_iff in Hq; destruct Hq as ([q' m] & X & Hi); cbn [fst] in X; subst q'.
        apply (fn_good kc h m q), Hfn; right; exact Hi.
  Qed.
End Lines.

(** *** The text can be read back *)
Lemma preorder_unique : forall l1 l2 a, preorder a l1 -> preorder a l2 ->
  map (fun p : path => (length p, last p ".")) l1 = map (fun p : path => (length p, last p ".")) l2 -> l1 = l2.
Proof.
  induction l1 as [|b1 l1 IH]; intros [|b2 l2] a H1 H2 E; try discriminate; [reflexivity|].
  cbn [map] in E; injection E as E1 E2 E3; destruct H1 as ((q1 & k1 & (s1 & A1) & ->) & P1); destruct H2 as ((q2 & k2 & (s2 & A2) & ->) & P2).
  rewrite !last_last in E2; rewrite !app_length in E1; cbn [length] in E1; subst k2.
  assert (q1 = q2) as <-.
  { assert (length q1 = length q2) as L by lia; clear - A1 A2 L; rewrite A1 in A2; clear A1.
    revert q2 L A2; induction q1 as [|x q1 IH]; intros [|y q2] L A; try discriminate; [reflexivity|].
    cbn [app] in A; injection A as -> A; f_equal; apply (IH q2); [injection L as L; exact L|exact A]. }
  f_equal; apply (IH l2 (q1 ++ [k1]) P1 P2 E3).
Qed.

Lemma append_inj_r : forall (a b c : string), (a ++ c = b ++ c)%string -> a = b.
Proof.
  intros a b c E.
  assert (Lap : forall x y : string, String.length (x ++ y)%string = String.length x + String.length y).
  { induction x as [|z x IH]; intros y; [reflexivity|]; cbn [append String.length]; rewrite IH; reflexivity. }
  revert b E; induction a as [|x a IH]; intros [|y b] E; [reflexivity| | |].
  - exfalso; apply (f_equal String.length) in E; rewrite !Lap in E; cbn [String.length] in E; lia.
  - exfalso; apply (f_equal String.length) in E; rewrite !Lap in E; cbn [String.length] in E; lia.
  - cbn [append] in E; injection E as -> E; f_equal; apply IH, E.
Qed.
Lemma times_tab : forall i j a b, (times i (String tab "") ++ opening ++ a = times j (String tab "") ++ opening ++ b)%string -> i = j /\ a = b.
Proof.
  induction i as [|i IH]; intros [|j] a b E; cbn in E.
  - injection E as E; auto.
  - discriminate.
  - discriminate.
  - injection E as E; apply IH in E; destruct E as [-> ->]; auto.
Qed.
Lemma line_inj : forall p q, line p = line q -> length p = length q /\ last p "." = last q ".".
Proof.
  intros p q E; rewrite !line_is in E; apply times_tab in E; destruct E as [E1 E2]; split; [exact E1|].
  apply append_inj_r in E2; exact E2.
Qed.
Lemma split_first : forall c x s, count_char c x = 0 -> split_on c (x ++ String c s)%string = x :: split_on c s.
Proof.
  induction x as [|a x IH]; intros s H; cbn [append split_on].
  - rewrite Ascii.eqb_refl; reflexivity.
  - cbn [count_char] in H; destruct (Ascii.eqb a c); [discriminate|]; cbn in H; rewrite IH by exact H; reflexivity.
Qed.
Lemma split_none : forall c x, count_char c x = 0 -> split_on c x = [x].
Proof.
  induction x as [|a x IH]; intros H; cbn [split_on]; [reflexivity|].
  cbn [count_char] in H; destruct (Ascii.eqb a c); [discriminate|]; cbn in H; rewrite IH by exact H; reflexivity.
Qed.
Lemma split_concat : forall c l, l <> [] -> Forall (fun x => count_char c x = 0) l -> split_on c (String.concat (String c "") l) = l.
Proof.
  intros c l N F; induction F as [|x l Hx F IH]; [congruence|]; destruct l as [|y l].
  - apply split_none, Hx.
  - rewrite concat_cons2; change (String c "" ++ ?s)%string with (String c s).
    cbn [append]; rewrite split_first by exact Hx; f_equal; apply IH; discriminate.
Qed.
Lemma count_times : forall c n s, count_char c s = 0 -> count_char c (times n s) = 0.
Proof. induction n as [|n IH]; intros s H; [reflexivity|]; cbn [times]; rewrite count_app, H, IH by exact H; reflexivity. Qed.

Lemma text_inj : forall l1 l2 : list path,
  Forall (Forall (fun k => count_char nl k = 0)) l1 -> Forall (Forall (fun k => count_char nl k = 0)) l2 ->
  preorder [] l1 -> preorder [] l2 ->
  (first_line ++ String.concat (String nl "") (map line ([] :: l1)) ++ ">" = first_line ++ String.concat (String nl "") (map line ([] :: l2)) ++ ">")%string ->
  l1 = l2.
Proof.
  intros l1 l2 F1 F2 P1 P2 E.
  assert (String.concat (String nl "") (map line ([] :: l1)) = String.concat (String nl "") (map line ([] :: l2))) as E1.
  { apply (append_inj_r _ _ ">"); revert E; generalize (String.concat (String nl "") (map line ([] :: l1)) ++ ">")%string (String.concat (String nl "") (map line ([] :: l2)) ++ ">")%string.
    intros a b E; cbn in E; injection E as E; exact E. }
  assert (forall l, Forall (Forall (fun k => count_char nl k = 0)) l -> Forall (fun x => count_char nl x = 0) (map line ([] :: l))) as NL.
  { intros l F; assert (Forall (Forall (fun k => count_char nl k = 0)) ([] :: l)) as F' by (constructor; [constructor|exact F]).
    clear - F'; induction F' as [|p lx Hp Fx IH]; [constructor|]; cbn [map]; constructor; [|exact IH].
    rewrite line_is, !count_app, count_times by reflexivity.
    assert (count_char nl (last p ".") = 0) as ->; [|reflexivity].
    destruct p as [|k p _] using rev_ind; [reflexivity|]; rewrite last_last; apply Forall_app in Hp; destruct Hp as [_ Hp]; inversion Hp; assumption. }
  apply (f_equal (split_on nl)) in E1; rewrite !split_concat in E1; try discriminate; [|apply NL, F2|apply NL, F1].
  cbn [map] in E1; injection E1 as E1; apply (preorder_unique _ _ [] P1 P2).
  clear - E1; revert l2 E1; induction l1 as [|p l1 IH]; intros [|q l2] E; try discriminate; [reflexivity|].
  cbn [map] in *; injection E as Ep El; apply line_inj in Ep; destruct Ep as [-> ->]; f_equal; apply IH, El.
Qed.
