(** C39, continued: rotation to another file system, by one thread with forced flush. *)
From Coq Require Import Lia.
From Verif Require Import Base File_Model File_Props.
Local Open Scope string_scope.
Local Open Scope list_scope.

Section Cross.
  Variable A : Type.
  Notation fev := (fev A).
  Notation fstate := (fstate A).
  Variable c : fconf.
  Variable others : list (string * list A).
  Variable old : list A.
  Notation fname := (f_name c).

  (** Only thread t makes steps; and its handler hands out its buffer when it likes. *)
  Definition only (t : nat) (l : list (sched)) : Prop :=
    Forall (fun x => match x with Run u _ => u = t | Emit h _ => h = f_of c t end) l.

  Variable t : nat.
  Notation h := (f_of c t).
  Hypothesis forced : f_forced c = true.
  Hypothesis start_names : NoDup (map fst others) /\ ~ In fname (map fst others).

  Definition flushing (p : fpc A) : bool := match p with Flush0 _ | Flush1 _ => true | _ => false end.
  Record jnv (s : fstate) (ev : list fev) : Prop := mkJ {
    j_keys : NoDup (dkeys (dir A s));
    j_len : forall x k, dget String.eqb (dir A s) x = Some k -> k < length (inodes A s);
    j_inj : forall x y k, dget String.eqb (dir A s) x = Some k -> dget String.eqb (dir A s) y = Some k -> x = y;
    j_obj : forall i b, obj A s h = Opened A i b -> dget String.eqb (dir A s) fname = Some i \/ (b = [] /\ exists w, pcs A s t = Move2 A w);
    j_buf : flushing (pcs A s t) = false -> buffer A s h = [];
    j_closed : forall w, pcs A s t = Move3 A w -> obj A s h = Closed A;
    j_text : map snd (everything A s fname ev) ++ buffer A s h = old ++ accepted A h ev;
    j_others : forall name x, In (name, x) others -> read A s name = Some (no_mark A x)
  }.

  (** What the statements look at: the texts by name. *)
  Lemma contents_emit : forall s n x i b, obj A s h = Opened A i b -> (forall k, dget String.eqb (dir A s) x = Some k -> k < length (inodes A s)) ->
    i < length (inodes A s) ->
    read A (emit A s h n) x = match dget String.eqb (dir A s) x with
      | Some k => Some (nth k (inodes A s) [] ++ if Nat.eqb k i then map (fun y => (Some h, y)) (firstn n b) else [])
      | None => None end.
  Proof.
    intros s n x i b O L Li; unfold read, emit; rewrite O; cbn [set_obj set_fs dir inodes]; destruct (dget String.eqb (dir A s) x) as [k|] eqn:D; [|reflexivity].
    rewrite append_to_nth by exact Li; destruct (Nat.eqb_spec k i) as [->|N]; [reflexivity|rewrite app_nil_r; reflexivity].
  Qed.
  Lemma append_nil : forall l i, append_to A l i [] = l.
  Proof. induction l as [|y r IH]; intros [|i]; cbn; [reflexivity|reflexivity|rewrite app_nil_r; reflexivity|rewrite IH; reflexivity]. Qed.
  Lemma emit_dir : forall s n, dir A (emit A s h n) = dir A s /\ pcs A (emit A s h n) = pcs A s /\ length (inodes A (emit A s h n)) = length (inodes A s).
  Proof. intros s n; unfold emit; destruct (obj A s h) as [i b|]; cbn; repeat split; apply append_to_length. Qed.

  Lemma jnv_emit : forall s ev n, new_names A c others ev -> jnv s ev -> jnv (emit A s h n) ev.
  Proof.
    intros s ev n [_ NN] [Jk Jl Ji Jo Jb Jc Jt Jx]; destruct (emit_dir s n) as (Ed & Ep & El).
    destruct (obj A s h) as [i b|] eqn:O; [|unfold emit; rewrite O; constructor; rewrite ?O; auto].
    destruct (Jo i b eq_refl) as [D|[-> [w P]]].
    - assert (Li : i < length (inodes A s)) by (eapply Jl; exact D).
      assert (R : forall x, x <> fname -> read A (emit A s h n) x = read A s x).
      { intros x N; rewrite (contents_emit s n x i b O (Jl x) Li); unfold read; destruct (dget String.eqb (dir A s) x) as [k|] eqn:E; [|reflexivity].
        destruct (Nat.eqb_spec k i) as [->|_]; [exfalso; apply N, (Ji x fname i E D)|rewrite app_nil_r; reflexivity]. }
      constructor; rewrite ?Ed, ?Ep, ?El; auto.
      + intros i' b' E; left; unfold emit in E; rewrite O in E; cbn in E; rewrite upd_same in E; injection E as <- _; exact D.
      + intros F; specialize (Jb F); unfold buffer in *; rewrite O in Jb; subst b; unfold emit; rewrite O; cbn; rewrite upd_same; apply skipn_nil.
      + intros w P; pose proof (Jc w P) as Q; discriminate Q.
      + assert (M : map (contents A (emit A s h n)) (moved A ev) = map (contents A s) (moved A ev)).
        { apply map_ext_in; intros d Hd; unfold contents; rewrite R; [reflexivity|apply (NN d Hd)]. }
        assert (B : buffer A (emit A s h n) h = skipn n b) by (unfold buffer, emit; rewrite O; cbn; rewrite upd_same; reflexivity).
        assert (B0 : buffer A s h = b) by (unfold buffer; rewrite O; reflexivity).
        unfold everything in *; rewrite M, B; rewrite B0 in Jt; rewrite <- Jt, !map_app, <- !app_assoc; f_equal.
        unfold contents; rewrite (contents_emit s n fname i b O (Jl fname) Li); unfold read; rewrite D, Nat.eqb_refl, map_app, <- app_assoc, map_map, map_id, firstn_skipn; reflexivity.
      + intros name x Hx; rewrite R; [apply Jx, Hx|]; intros ->; apply start_names; apply (in_map fst) in Hx; exact Hx.
    - assert (Q : emit A s h n = set_obj A (set_fs A s (inodes A s) (dir A s)) h (Opened A i [])) by (unfold emit; rewrite O, firstn_nil, skipn_nil, append_nil; reflexivity).
      assert (Bz : buffer A (emit A s h n) h = buffer A s h) by (rewrite Q; unfold buffer; cbn; rewrite upd_same, O; reflexivity).
      constructor; rewrite ?Ed, ?Ep, ?El, ?Bz; auto.
      + intros i' b' E; rewrite Q in E; cbn in E; rewrite upd_same in E; injection E as <- <-; right; split; [reflexivity|exists w; exact P].
      + intros w' P'; pose proof (Jc w' P') as Z; discriminate Z.
      + rewrite Q; exact Jt.
      + rewrite Q; exact Jx.
  Qed.

  (** Steps that leave the files and the object alone. *)
  Lemma jnv_same : forall s s' ev e, jnv s ev -> inodes A s' = inodes A s -> dir A s' = dir A s -> obj A s' h = obj A s h ->
    flushing (pcs A s' t) = true \/ buffer A s h = [] -> (forall w, pcs A s t <> Move2 A w) -> (forall w, pcs A s' t <> Move3 A w) ->
    accepted A h e = [] -> moved A e = [] -> jnv s' (ev ++ e).
  Proof.
    intros s s' ev e [Jk Jl Ji Jo Jb Jc Jt Jx] E1 E2 E3 F N2 N3 Ea Em.
    assert (R : forall x, read A s' x = read A s x) by (intros x; unfold read; rewrite E1, E2; reflexivity).
    assert (B : buffer A s' h = buffer A s h) by (unfold buffer; rewrite E3; reflexivity).
    constructor; rewrite ?E1, ?E2, ?E3, ?B; auto.
    - intros i b O; destruct (Jo i b O) as [D|[_ [w P]]]; [left; exact D|now destruct (N2 w)].
    - intros Q; destruct F as [F|F]; [congruence|exact F].
    - intros w P; now destruct (N3 w).
    - rewrite accepted_app, Ea, app_nil_r, <- Jt; unfold everything; rewrite moved_app, Em, app_nil_r; f_equal; f_equal; f_equal; [f_equal; apply map_ext; intros x|]; unfold contents; rewrite R; reflexivity.
    - intros name x Hx; rewrite R; apply Jx, Hx.
  Qed.

  Lemma jnv_step : forall s ev x s' e, only t [x] -> jnv s ev -> new_names A c others (ev ++ e) -> fstep A c s x = Some (s', e) -> jnv s' (ev ++ e).
  Proof.
    intros s ev x s' e Ho J NN E; inversion Ho as [|? ? Hx _]; subst; pose proof (new_names_prefix A c others ev e NN) as NP; destruct x as [u ch|g n]; cbn [fstep] in E; subst.
    2:{ injection E as <- <-; rewrite app_nil_r; apply jnv_emit; assumption. }
    assert (REL : forall s1, inodes A (release A c s1 t) = inodes A s1 /\ dir A (release A c s1 t) = dir A s1 /\ obj A (release A c s1 t) = obj A s1) by (intros; apply release_fs).
    pose proof (j_buf s ev J) as Jb.
    assert (GO : forall s1 p, inodes A s1 = inodes A s /\ dir A s1 = dir A s /\ obj A s1 = obj A s -> (forall w, pcs A s t <> Move2 A w) -> (forall w, p <> Move3 A w) ->
       flushing p = true \/ flushing (pcs A s t) = false -> jnv (go A s1 t p) (ev ++ [])).
    { intros s1 p (E1 & E2 & E3) N2 N3 F; apply (jnv_same s); cbn; rewrite ?upd_same; auto; [congruence|].
      destruct F as [F|F]; [left; exact F|right; apply Jb, F]. }
    assert (GOE : forall s1 p e0, inodes A s1 = inodes A s /\ dir A s1 = dir A s /\ obj A s1 = obj A s -> (forall w, pcs A s t <> Move2 A w) -> (forall w, p <> Move3 A w) ->
       flushing (pcs A s t) = false -> accepted A h e0 = [] -> moved A e0 = [] -> jnv (go A s1 t p) (ev ++ e0)).
    { intros s1 p e0 (E1 & E2 & E3) N2 N3 F Ea Em; apply (jnv_same s); cbn; rewrite ?upd_same; auto; congruence. }
    destruct (pcs A s t) eqn:P.
    - destruct (progs A s t); [discriminate E|]; injection E as <- <-; apply GO; [repeat split|discriminate|discriminate|right; reflexivity].
    - destruct (rlk A s h); [discriminate E|]; injection E as <- <-; apply GO; [repeat split|discriminate|discriminate|right; reflexivity].
    - destruct (c_dest ch); injection E as <- <-; apply GOE; try reflexivity; try discriminate; repeat split.
    - destruct (acquire A c s t) as [s1|] eqn:Q; [|discriminate E]; injection E as <- <-; apply GO; [apply (acquire_fs A c s t s1 Q)|discriminate|discriminate|right; reflexivity].
    - destruct (if c_move ch then move A c s d else None) as [s1|] eqn:M; injection E as <- <-.
      2:{ apply GO; [exact (REL s)|discriminate|discriminate|right; reflexivity]. }
      destruct (c_move ch); [|discriminate M]; unfold move in M; destruct (dget String.eqb (dir A s) fname) as [i|] eqn:D; [|discriminate M].
      set (k := if f_cross c then length (inodes A s) else i).
      set (ino := if f_cross c then inodes A s ++ [nth i (inodes A s) []] else inodes A s).
      assert (S1 : inodes A s1 = ino /\ dir A s1 = dset String.eqb (ddel String.eqb (dir A s) fname) d k /\ obj A s1 = obj A s) by (injection M as <-; unfold ino, k; destruct (f_cross c); repeat split).
      destruct S1 as (S1 & S2 & S3); destruct J as [Jk Jl Ji Jo Jb' Jc Jt Jx].
      pose proof (Jl _ _ D) as Li.
      assert (IN : forall j, j < length (inodes A s) -> nth j ino [] = nth j (inodes A s) []) by (intros j L; unfold ino; destruct (f_cross c); [apply app_nth1, L|reflexivity]).
      assert (IK : nth k ino [] = nth i (inodes A s) []) by (unfold ino, k; destruct (f_cross c); [rewrite app_nth2, Nat.sub_diag by lia|]; reflexivity).
      assert (LK : k < length ino) by (unfold ino, k; destruct (f_cross c); [rewrite app_length; cbn; lia|exact Li]).
      assert (LL : length (inodes A s) <= length ino) by (unfold ino; destruct (f_cross c); [rewrite app_length; lia|lia]).
      destruct NN as [ND NN]; rewrite moved_app in ND, NN; cbn [moved app] in ND, NN.
      destruct (NN d) as [Nd1 Nd2]; [apply in_or_app; right; left; reflexivity|].
      assert (DG : forall y, dget String.eqb (dir A s1) y = if String.eqb y d then Some k else if String.eqb y fname then None else dget String.eqb (dir A s) y).
      { intros y; rewrite S2, (dget_dset String.eqb String.eqb_spec); destruct (String.eqb_spec y d); [reflexivity|].
        destruct (String.eqb_spec y fname) as [->|N]; [apply (dget_ddel_same String.eqb String.eqb_spec); exact Jk|apply (dget_ddel_other String.eqb String.eqb_spec); congruence]. }
      assert (RD : forall y, y <> d -> y <> fname -> read A s1 y = read A s y).
      { intros y Y1 Y2; unfold read; rewrite DG, S1; destruct (String.eqb_spec y d); [contradiction|]; destruct (String.eqb_spec y fname); [contradiction|].
        destruct (dget String.eqb (dir A s) y) as [j|] eqn:Dy; [|reflexivity]; rewrite IN by (eapply Jl; exact Dy); reflexivity. }
      assert (RK : forall y, read A (go A s1 t (Move2 A s0)) y = read A s1 y) by reflexivity.
      constructor; cbn [go dir inodes obj pcs]; rewrite ?upd_same.
      + rewrite S2; apply (NoDup_dset String.eqb String.eqb_spec), NoDup_ddel; exact Jk.
      + intros y j; rewrite DG, S1; destruct (String.eqb y d); [intros Q; injection Q as <-; exact LK|]; destruct (String.eqb y fname); [discriminate|].
        intros Q; apply Jl in Q; lia.
      + assert (KN : forall y, y <> fname -> dget String.eqb (dir A s) y <> Some k).
        { intros y Ny Q; unfold k in Q; destruct (f_cross c); [apply Jl in Q; lia|apply Ny, (Ji _ _ _ Q D)]. }
        intros y z j; rewrite !DG; destruct (String.eqb_spec y d) as [Y|Y], (String.eqb_spec z d) as [Z|Z];
          destruct (String.eqb_spec y fname) as [Yf|Yf]; destruct (String.eqb_spec z fname) as [Zf|Zf]; intros Q1 Q2;
          first [congruence|exact (Ji _ _ _ Q1 Q2)|exfalso; apply (KN z Zf); congruence|exfalso; apply (KN y Yf); congruence].
      + intros j b O; rewrite S3 in O; right; split; [|exists s0; reflexivity].
        specialize (Jb eq_refl); unfold buffer in Jb; rewrite O in Jb; exact Jb.
      + intros _; specialize (Jb eq_refl); unfold buffer in *; cbn [go obj]; rewrite S3; exact Jb.
      + discriminate.
      + assert (B0 : buffer A (go A s1 t (Move2 A s0)) h = buffer A s h) by (unfold buffer; cbn [go obj]; rewrite S3; reflexivity).
        rewrite B0, accepted_app; cbn [accepted]; rewrite app_nil_r, <- Jt; f_equal; f_equal; unfold everything; rewrite moved_app; cbn [moved app]; rewrite map_app, concat_app; cbn [map concat]; rewrite app_nil_r, <- app_assoc; f_equal.
        * f_equal; apply map_ext_in; intros y Hy; unfold contents; rewrite RK, RD; [reflexivity| |].
          { intros ->; apply NoDup_remove_2 in ND; rewrite app_nil_r in ND; contradiction. }
          { apply NN, in_or_app; left; exact Hy. }
        * unfold contents; rewrite !RK; unfold read; rewrite !DG, String.eqb_refl, D, S1, IK; destruct (String.eqb_spec fname d); [congruence|]; rewrite String.eqb_refl, app_nil_r; reflexivity.
      + intros name x Hx; rewrite RK, RD; [apply Jx, Hx| |]; intros ->; apply (in_map fst) in Hx; [exact (Nd2 Hx)|destruct start_names as [_ Q]; exact (Q Hx)].
    - injection E as <- <-; rewrite app_nil_r in *; assert (J1 : jnv (emit_all A s h) ev) by (unfold emit_all; destruct (obj A s h); [apply jnv_emit; assumption|exact J]).
      assert (Ep : pcs A (emit_all A s h) = pcs A s) by (unfold emit_all; destruct (obj A s h); [apply emit_dir|reflexivity]).
      assert (Z : buffer A (emit_all A s h) h = []) by (apply (j_buf _ _ J1); rewrite Ep, P; reflexivity).
      destruct J1 as [Jk Jl Ji Jo _ Jc Jt Jx]; constructor; cbn [go set_obj dir inodes obj pcs buffer]; rewrite ?upd_same; auto.
      + discriminate.
      + intros _; unfold buffer; cbn; rewrite upd_same; reflexivity.
      + rewrite <- Jt, Z; unfold buffer; cbn [go set_obj obj]; rewrite upd_same; reflexivity.
    - injection E as <- <-; rewrite app_nil_r in *; pose proof (j_closed s ev J s0 P) as O.
      assert (RL : forall s1, inodes A (release A c s1 t) = inodes A s1 /\ dir A (release A c s1 t) = dir A s1 /\ obj A (release A c s1 t) = obj A s1) by exact REL.
      destruct (c_open ch).
      2:{ rewrite <- (app_nil_r ev); destruct (RL s) as (R1 & R2 & R3); apply (jnv_same s); cbn; rewrite ?upd_same; auto; try congruence; discriminate. }
      destruct (RL (reopen A c s h)) as (R1 & R2 & R3); destruct J as [Jk Jl Ji Jo Jb' Jc Jt Jx].
      assert (B0 : buffer A s h = []) by (unfold buffer; rewrite O; reflexivity).
      unfold reopen in *; destruct (dget String.eqb (dir A s) fname) as [i|] eqn:D.
      + constructor; cbn [go set_rlk dir inodes obj pcs]; rewrite ?upd_same, ?R1, ?R2, ?R3; cbn [set_obj dir inodes obj]; auto.
        * intros j b; rewrite upd_same; intros Q; injection Q as <- _; left; exact D.
        * intros _; unfold buffer; cbn [go set_rlk obj]; rewrite R3; cbn; rewrite upd_same; reflexivity.
        * discriminate.
        * rewrite <- Jt, B0; unfold buffer, everything, contents, read; cbn [go set_rlk dir inodes obj]; rewrite R1, R2, R3; cbn [set_obj dir inodes obj]; rewrite upd_same; reflexivity.
        * intros name x Hx; rewrite <- (Jx name x Hx); unfold read; cbn [go set_rlk dir inodes]; rewrite R1, R2; reflexivity.
      + assert (DG : forall y, dget String.eqb (dset String.eqb (dir A s) fname (length (inodes A s))) y = if String.eqb y fname then Some (length (inodes A s)) else dget String.eqb (dir A s) y) by (intros y; apply (dget_dset String.eqb String.eqb_spec)).
        assert (RD : forall y, y <> fname -> match dget String.eqb (dset String.eqb (dir A s) fname (length (inodes A s))) y with Some k => Some (nth k (inodes A s ++ [[]]) []) | None => None end = read A s y).
        { intros y N; rewrite DG; destruct (String.eqb_spec y fname); [contradiction|]; unfold read; destruct (dget String.eqb (dir A s) y) as [j|] eqn:Dy; [|reflexivity].
          rewrite app_nth1 by (eapply Jl; exact Dy); reflexivity. }
        constructor; cbn [go set_rlk dir inodes obj pcs]; rewrite ?upd_same, ?R1, ?R2, ?R3; cbn [set_obj set_fs dir inodes obj].
        * apply (NoDup_dset String.eqb String.eqb_spec); exact Jk.
        * intros y j; rewrite DG, app_length; cbn; destruct (String.eqb y fname); [intros Q; injection Q as <-; lia|intros Q; apply Jl in Q; lia].
        * intros y z j; rewrite !DG; destruct (String.eqb_spec y fname) as [->|Y], (String.eqb_spec z fname) as [->|Z]; intros Q1 Q2.
          { reflexivity. }
          { injection Q1 as <-; apply Jl in Q2; lia. }
          { injection Q2 as <-; apply Jl in Q1; lia. }
          { exact (Ji _ _ _ Q1 Q2). }
        * intros j b; rewrite upd_same; intros Q; injection Q as <- _; left; rewrite DG, String.eqb_refl; reflexivity.
        * intros _; unfold buffer; cbn [go set_rlk obj]; rewrite R3; cbn; rewrite upd_same; reflexivity.
        * discriminate.
        * rewrite <- Jt, B0, app_nil_r; unfold buffer, everything, contents, read; cbn [go set_rlk dir inodes obj]; rewrite R1, R2, R3; cbn [set_obj set_fs dir inodes obj]; rewrite upd_same, app_nil_r, !map_app; f_equal.
          { f_equal; f_equal; apply map_ext_in; intros y Hy; destruct NP as [_ NP]; rewrite (RD y) by (apply (NP y Hy)); reflexivity. }
          { rewrite DG, String.eqb_refl, D, app_nth2, Nat.sub_diag by lia; reflexivity. }
        * intros name x Hx; unfold read; cbn [go set_rlk dir inodes]; rewrite R1, R2; cbn [set_obj set_fs dir inodes]; rewrite (RD name); [apply Jx, Hx|].
          intros ->; apply (in_map fst) in Hx; destruct start_names as [_ Q]; exact (Q Hx).
    - destruct (acquire A c s t) as [s1|] eqn:Q; [|discriminate E]; injection E as <- <-; apply GO; [apply (acquire_fs A c s t s1 Q)|discriminate|discriminate|right; reflexivity].
    - destruct (obj A s h) as [i b|] eqn:O; injection E as <- <-.
      2:{ apply GOE; try reflexivity; try discriminate; exact (REL s). }
      rewrite forced; destruct (REL (set_obj A s h (Opened A i (b ++ s0)))) as (R1 & R2 & R3); destruct J as [Jk Jl Ji Jo Jb' Jc Jt Jx].
      destruct (Jo i b O) as [D|[_ [w Q]]]; [|congruence].
      constructor; cbn [go dir inodes obj pcs]; rewrite ?upd_same, ?R1, ?R2, ?R3; cbn [set_obj dir inodes obj]; auto; try discriminate.
      + intros j b'; rewrite upd_same; intros Q; injection Q as <- _; left; exact D.
      + rewrite accepted_app; cbn [accepted]; rewrite Nat.eqb_refl, app_nil_r, app_assoc, <- Jt, <- app_assoc; unfold buffer, everything, contents, read; cbn [go dir inodes obj]; rewrite moved_app, R1, R2, R3; cbn [set_obj dir inodes obj moved]; rewrite upd_same, O, app_nil_r; reflexivity.
      + intros name x Hx; rewrite <- (Jx name x Hx); unfold read; cbn [go dir inodes]; rewrite R1, R2; reflexivity.
    - destruct (acquire A c s t) as [s1|] eqn:Q; [|discriminate E]; injection E as <- <-; apply GO; [apply (acquire_fs A c s t s1 Q)|discriminate|discriminate|left; reflexivity].
    - injection E as <- <-; assert (J1 : jnv (emit_all A s h) ev) by (unfold emit_all; destruct (obj A s h); [apply jnv_emit; assumption|exact J]).
      assert (Ep : pcs A (emit_all A s h) = pcs A s) by (unfold emit_all; destruct (obj A s h); [apply emit_dir|reflexivity]).
      destruct (REL (emit_all A s h)) as (R1 & R2 & R3).
      assert (R4 : pcs A (release A c (emit_all A s h) t) = pcs A s) by (rewrite <- Ep; unfold release; destruct (f_locked c); reflexivity).
      apply (jnv_same (emit_all A s h)); cbn; rewrite ?upd_same, ?R3; auto; try discriminate; [|intros w Q; rewrite Ep, P in Q; discriminate Q].
      right; unfold buffer; destruct (obj A (emit_all A s h) h) as [i b|] eqn:O; [|reflexivity]; apply (emit_all_empty A s h i b O).
  Qed.

  Lemma jnv_run : forall l s ev s' e, only t l -> jnv s ev -> new_names A c others (ev ++ e) -> frun A c s l = Some (s', e) -> jnv s' (ev ++ e).
  Proof.
    induction l as [|x r IH]; intros s ev s' e Ho J N E; cbn in E.
    - injection E as <- <-; rewrite app_nil_r; exact J.
    - destruct (fstep A c s x) as [[s1 e1]|] eqn:E1; [|discriminate E]; destruct (frun A c s1 r) as [[s2 e2]|] eqn:E2; [|discriminate E].
      injection E as <- <-; inversion Ho as [|? ? H1 H2]; subst; rewrite app_assoc in *; apply (IH s1 (ev ++ e1)); [exact H2| |exact N|exact E2].
      apply (jnv_step s ev x s1 e1); [constructor; [exact H1|constructor]|exact J|eapply new_names_prefix; exact N|exact E1].
  Qed.

  Lemma jnv_start : forall p0, jnv (fstart A c others old p0) [].
  Proof.
    intros p0; destruct start_names as [D N].
    assert (LO : length (map fst others) = length others) by apply map_length.
    assert (K : dkeys (combine (map fst others) (seq 0 (length others))) = map fst others) by (unfold dkeys; rewrite <- LO; apply combine_keys).
    assert (C : dget String.eqb (combine (map fst others) (seq 0 (length others))) fname = None) by (apply (dget_None String.eqb String.eqb_spec); rewrite K; exact N).
    assert (Dc : dget String.eqb (dir A (fstart A c others old p0)) fname = Some (length others)) by (cbn [fstart dir]; rewrite dget_app, C; cbn; rewrite String.eqb_refl; reflexivity).
    assert (G : forall x k, dget String.eqb (dir A (fstart A c others old p0)) x = Some k -> (x = fname /\ k = length others) \/ nth_error (map fst others) k = Some x).
    { intros x k; cbn [fstart dir]; rewrite dget_app; destruct (dget String.eqb (combine _ _) x) as [j|] eqn:E.
      - intros Q; injection Q as ->; right.
        assert (Hx : In x (map fst others)) by (rewrite <- K; destruct (in_dec string_dec x (dkeys (combine (map fst others) (seq 0 (length others))))) as [Q|Q]; [exact Q|]; apply (dget_None String.eqb String.eqb_spec) in Q; congruence).
        apply In_nth_error in Hx; destruct Hx as [q Hq]; rewrite <- LO, (nth_error_combine _ 0 q x Hq D) in E; injection E as <-; exact Hq.
      - cbn; destruct (String.eqb_spec x fname) as [->|]; [|discriminate]; intros Q; injection Q as <-; left; split; reflexivity. }
    assert (LI : length (inodes A (fstart A c others old p0)) = S (length others)) by (cbn; rewrite app_length, map_length; cbn; lia).
    constructor.
    - cbn [fstart dir]; unfold dkeys in *; rewrite map_app, K; cbn; apply (NoDup_Add (a := fname) (l := map fst others)); [|split; assumption].
      rewrite <- (app_nil_r (map fst others)) at 1; apply Add_app.
    - intros x k Q; rewrite LI; destruct (G x k Q) as [[_ ->]|Q2]; [lia|]; assert (k < length (map fst others)) by (apply nth_error_Some; congruence); lia.
    - intros x y k Qx Qy; destruct (G x k Qx) as [[-> Ex]|Q1], (G y k Qy) as [[-> Ey]|Q2]; [reflexivity| | |congruence];
        [assert (k < length (map fst others)) by (apply nth_error_Some; congruence)|assert (k < length (map fst others)) by (apply nth_error_Some; congruence)]; lia.
    - intros i b Q; cbn in Q; injection Q as <- _; left; exact Dc.
    - reflexivity.
    - intros w Q; discriminate Q.
    - unfold everything, contents, read; rewrite Dc; cbn [moved map concat app accepted buffer fstart inodes obj]; unfold buffer; cbn.
      rewrite app_nth2, map_length, Nat.sub_diag by (rewrite map_length; lia); cbn; rewrite map_map, map_id; reflexivity.
    - intros name x Hx; apply In_nth_error in Hx; destruct Hx as [j Hj].
      assert (Hn : nth_error (map fst others) j = Some name) by (rewrite nth_error_map, Hj; reflexivity).
      unfold read; cbn [fstart dir inodes]; rewrite dget_app, <- LO, (nth_error_combine _ 0 j name Hn D); cbn [Nat.add].
      assert (L : j < length others) by (apply nth_error_Some; congruence).
      rewrite app_nth1 by (rewrite map_length; exact L).
      rewrite (nth_indep _ [] ((fun f => map (fun x : A => (@None nat, x)) (snd f)) (name, x))) by (rewrite map_length; exact L).
      rewrite (map_nth (fun f : string * list A => map (fun x : A => (@None nat, x)) (snd f))), (nth_error_nth _ _ _ Hj); reflexivity.
  Qed.

  (** C39: one thread with forced flush loses and doubles nothing also if rotated files go to another file system, whatever the
      rules, the failures of moves and openings; between two records all is in the files. *)
  Theorem C39_other_file_system : forall p0 l s ev, only t l -> frun A c (fstart A c others old p0) l = Some (s, ev) -> new_names A c others ev ->
    map snd (everything A s fname ev) ++ buffer A s h = old ++ accepted A h ev /\
    (pcs A s t = Idle A -> map snd (everything A s fname ev) = old ++ accepted A h ev) /\
    forall name x, In (name, x) others -> read A s name = Some (no_mark A x).
  Proof.
    intros p0 l s ev Ho E N; pose proof (jnv_run l _ [] s ev Ho (jnv_start p0) N E) as J; cbn [app] in J; split; [apply (j_text s ev J)|split].
    - intros P; rewrite <- (j_text s ev J), (j_buf s ev J), app_nil_r; [reflexivity|rewrite P; reflexivity].
    - apply (j_others s ev J).
  Qed.
End Cross.

(** Two records, the second after a rotation to another file system. *)
Definition x_conf : fconf := mkF "log" (fun _ => 0) true true true.
Definition x_yes : choice := mkC (Some "d") true true.
Definition x_no : choice := mkC None true true.
Example ex_cross : exists s ev,
  frun nat x_conf (fstart nat x_conf [("z", [9])] [1] (fun _ => [[2]; [3]]))
    (repeat (Run 0 x_no) 7 ++ repeat (Run 0 x_yes) 11) = Some (s, ev) /\
  pcs nat s 0 = Idle nat /\ moved nat ev = ["d"] /\ map snd (contents nat s "d") = [1; 2] /\ map snd (contents nat s "log") = [3].
Proof. vm_compute; eexists _, _; repeat split. Qed.

Print Assumptions C39_other_file_system.
