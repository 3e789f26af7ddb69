(** C39: rotation loses and duplicates nothing. *)
From Coq Require Import Lia Setoid.
From Verif Require Import Base File_Model.
Local Open Scope string_scope.
Local Open Scope list_scope.

Section FilesProps.
  Variable A : Type.
  Notation text := (text A).
  Notation fev := (fev A).
  Notation fstate := (fstate A).

  (** ** What is expected, in terms of the events and of the files *)
  (** All that a handler accepted, in order. *)
  Fixpoint accepted (h : nat) (ev : list fev) : list A :=
    match ev with
    | [] => []
    | EAccepted _ g s :: r => (if Nat.eqb g h then s else []) ++ accepted h r
    | _ :: r => accepted h r
    end.
  (** The names given to the rotated files, in order. *)
  Fixpoint moved (ev : list fev) : list string :=
    match ev with [] => [] | EMoved _ _ d _ :: r => d :: moved r | _ :: r => moved r end.
  (** What a handler still has in its buffer. *)
  Definition buffer (s : fstate) (h : nat) : list A := match obj A s h with Opened _ _ b => b | Closed _ => [] end.
  (** The rotated files in the order of rotation, and then the current one. *)
  Definition contents (s : fstate) (name : string) : text := match read A s name with Some t => t | None => [] end.
  Definition everything (s : fstate) (fname : string) (ev : list fev) : text :=
    concat (map (contents s) (moved ev)) ++ contents s fname.
  (** The part of a text that a handler wrote. *)
  Definition by_handler (h : nat) (t : text) : list A :=
    map snd (filter (fun p => match fst p with Some g => Nat.eqb g h | None => false end) t).

  Lemma upd_same : forall B (f : nat -> B) k v, upd f k v k = v.
  Proof. intros; unfold upd; rewrite Nat.eqb_refl; reflexivity. Qed.
  Lemma upd_other : forall B (f : nat -> B) k v x, x <> k -> upd f k v x = f x.
  Proof. intros B f k v x N; unfold upd; destruct (Nat.eqb_spec x k); congruence. Qed.

  Lemma accepted_app : forall h a b, accepted h (a ++ b) = accepted h a ++ accepted h b.
  Proof. intros h; induction a as [|[] a IH]; intros b; cbn; auto; rewrite IH, app_assoc; reflexivity. Qed.
  Lemma moved_app : forall a b, moved (a ++ b) = moved a ++ moved b.
  Proof. induction a as [|[] a IH]; intros b; cbn; auto; rewrite IH; reflexivity. Qed.
  Lemma by_app : forall h a b, by_handler h (a ++ b) = by_handler h a ++ by_handler h b.
  Proof. intros; unfold by_handler; rewrite filter_app, map_app; reflexivity. Qed.
  Lemma by_same : forall h l, by_handler h (map (fun x => (Some h, x)) l) = l.
  Proof. intros h; induction l as [|x l IH]; [reflexivity|]; unfold by_handler in *; cbn; rewrite Nat.eqb_refl; cbn; rewrite IH; reflexivity. Qed.
  Lemma by_other : forall h g l, g <> h -> by_handler h (map (fun x => (Some g, x)) l) = [].
  Proof. intros h g l N; induction l as [|x l IH]; [reflexivity|]; unfold by_handler in *; cbn; destruct (Nat.eqb_spec g h); [contradiction|exact IH]. Qed.
  Lemma by_none : forall h l, by_handler h (map (fun x => (None, x)) l) = [].
  Proof. intros h; induction l as [|x l IH]; [reflexivity|exact IH]. Qed.

  Lemma append_to_length : forall l i x, length (append_to A l i x) = length l.
  Proof. induction l as [|y r IH]; intros [|i] x; cbn; auto. Qed.
  Lemma append_to_nth : forall l i x j, i < length l -> nth j (append_to A l i x) [] = if Nat.eqb j i then nth i l [] ++ x else nth j l [].
  Proof.
    induction l as [|y r IH]; intros i x j H; [cbn in H; lia|].
    destruct i as [|i], j as [|j]; cbn; auto; apply IH; cbn in H; lia.
  Qed.
  Lemma append_to_by : forall h l i x, i < length l ->
    (forall j, i < j -> by_handler h (nth j l []) = []) \/ by_handler h x = [] ->
    by_handler h (concat (append_to A l i x)) = by_handler h (concat l) ++ by_handler h x.
  Proof.
    intros h; induction l as [|y r IH]; intros i x L H; [cbn in L; lia|].
    destruct i as [|i]; cbn [append_to concat]; rewrite !by_app.
    - assert (Z : by_handler h (concat r) = [] \/ by_handler h x = []).
      { destruct H as [H|H]; [left|right; exact H].
        assert (G : forall j, by_handler h (nth j r []) = []) by (intros j; apply (H (S j)); lia).
        clear -G; induction r as [|z r IH]; [reflexivity|]; cbn [concat]; rewrite by_app, (IH (fun j => G (S j))), app_nil_r; exact (G 0). }
      rewrite <- !app_assoc; destruct Z as [Z|Z]; rewrite Z, ?app_nil_r; reflexivity.
    - rewrite IH, app_assoc; [reflexivity|cbn in L; lia|].
      destruct H as [H|H]; [left; intros j J; apply (H (S j)); lia|right; exact H].
  Qed.

  Variable c : fconf.
  Variable others : list (string * list A).
  Variable old : list A.
  Hypothesis one_fs : f_cross c = false.
  Notation fname := (f_name c).
  Notation n0 := (length others).
  Definition no_mark (l : list A) : text := map (fun x => (None, x)) l.

  Lemma combine_keys : forall (ks : list string) a, map fst (combine ks (seq a (length ks))) = ks.
  Proof. induction ks as [|k ks IH]; intros a; cbn; [reflexivity|rewrite IH; reflexivity]. Qed.

  (** ** The invariant of the files *)
  Record inv (ino : list text) (d : list (string * nat)) (o : nat -> fobj A) (ev : list fev) : Prop := mkInv {
    v_keys : NoDup (dkeys d);
    v_cur : match dget String.eqb d fname with
            | Some i => i = n0 + length (moved ev) /\ length ino = S i
            | None => length ino = n0 + length (moved ev)
            end;
    v_moved : forall j x, nth_error (moved ev) j = Some x -> dget String.eqb d x = Some (n0 + j);
    v_others : forall x j, nth_error (map fst others) j = Some x -> dget String.eqb d x = Some j;
    v_old : forall j f, nth_error others j = Some f -> nth j ino [] = no_mark (snd f);
    v_first : exists r, nth n0 ino [] = no_mark old ++ r /\ Forall (fun p => fst p <> None) r;
    v_marks : forall j, n0 < j -> Forall (fun p => fst p <> None) (nth j ino []);
    v_obj : forall h i b, o h = Opened A i b -> n0 <= i < length ino /\ forall j, i < j -> by_handler h (nth j ino []) = [];
    v_bytes : forall h, by_handler h (concat ino) ++ match o h with Opened _ _ b => b | Closed _ => [] end = accepted h ev
  }.
  (** The names of the rotated files are new. *)
  Definition new_names (ev : list fev) : Prop :=
    NoDup (moved ev) /\ forall d, In d (moved ev) -> d <> fname /\ ~ In d (map fst others).
  Hypothesis start_names : NoDup (map fst others) /\ ~ In fname (map fst others).

  Lemma nth_error_combine : forall (ks : list string) a j x, nth_error ks j = Some x -> NoDup ks -> dget String.eqb (combine ks (seq a (length ks))) x = Some (a + j).
  Proof.
    induction ks as [|k ks IH]; intros a [|j] x E D; try discriminate; cbn in E |- *.
    - injection E as ->; rewrite String.eqb_refl, Nat.add_0_r; reflexivity.
    - inversion D as [|? ? N D']; subst; destruct (String.eqb_spec x k) as [->|Ne]; [exfalso; apply N; eapply nth_error_In; exact E|].
      rewrite (IH (S a) j x E D'); f_equal; lia.
  Qed.
  Lemma dget_app : forall (a b : list (string * nat)) k, dget String.eqb (a ++ b) k = match dget String.eqb a k with Some v => Some v | None => dget String.eqb b k end.
  Proof. induction a as [|[k' v] a IH]; intros b k; cbn; [reflexivity|]; destruct (String.eqb k k'); [reflexivity|apply IH]. Qed.

  Lemma inv_start : forall p0, inv (inodes A (fstart A c others old p0)) (dir A (fstart A c others old p0)) (obj A (fstart A c others old p0)) [].
  Proof.
    intros p0; destruct start_names as [D N]; cbn [fstart inodes dir obj].
    assert (LO : length (map fst others) = n0) by apply map_length.
    assert (K : dkeys (combine (map fst others) (seq 0 n0)) = map fst others) by (unfold dkeys; rewrite <- LO; apply combine_keys).
    assert (C : dget String.eqb (combine (map fst others) (seq 0 n0)) fname = None) by (apply (dget_None String.eqb String.eqb_spec); rewrite K; exact N).
    split.
    - unfold dkeys in *; rewrite map_app, K; cbn; apply (NoDup_Add (a := fname) (l := map fst others)); [|split; assumption].
      rewrite <- (app_nil_r (map fst others)) at 1; apply Add_app.
    - rewrite dget_app, C; cbn; rewrite String.eqb_refl, app_length, map_length; cbn; split; lia.
    - intros [|j] x; discriminate.
    - intros x j E; rewrite dget_app, <- LO, (nth_error_combine _ 0 j x E D); reflexivity.
    - intros j f E; assert (L : j < n0) by (apply nth_error_Some; congruence).
      rewrite app_nth1 by (rewrite map_length; exact L); unfold no_mark.
      rewrite (nth_indep _ [] ((fun f => map (fun x : A => (None, x)) (snd f)) f)) by (rewrite map_length; exact L).
      rewrite (map_nth (fun f : string * list A => map (fun x : A => (@None nat, x)) (snd f))).
      rewrite (nth_error_nth _ _ _ E); reflexivity.
    - exists []; rewrite app_nth2, map_length, Nat.sub_diag by (rewrite map_length; lia); cbn; rewrite app_nil_r; split; [reflexivity|constructor].
    - intros j L; rewrite nth_overflow; [constructor|rewrite app_length, map_length; cbn; lia].
    - intros h i b E; injection E as <- <-; rewrite app_length, map_length; cbn; split; [lia|].
      intros j L; rewrite nth_overflow; [reflexivity|rewrite app_length, map_length; cbn; lia].
    - intros h; assert (Z : by_handler h (concat (map (fun f : string * list A => map (fun x => (@None nat, x)) (snd f)) others)) = []).
      { clear; induction others as [|f r IH]; [reflexivity|]; cbn [map concat]; rewrite by_app, by_none; exact IH. }
      rewrite concat_app, by_app, Z; cbn [concat app accepted]; rewrite !app_nil_r; apply by_none.
  Qed.

  Lemma inv_emit : forall ino d o ev h i b n, inv ino d o ev -> o h = Opened A i b ->
    inv (append_to A ino i (map (fun x => (Some h, x)) (firstn n b))) d (upd o h (Opened A i (skipn n b))) ev.
  Proof.
    intros ino d o ev h i b n [Vk Vc Vm Vo Vl Vf Vs Vj Vb] E; destruct (Vj h i b E) as [Li Lz].
    assert (MK : Forall (fun p : option nat * A => fst p <> None) (map (fun x => (Some h, x)) (firstn n b))).
    { apply Forall_forall; intros p P; apply in_map_iff in P; destruct P as (x & <- & _); discriminate. }
    split; auto.
    - destruct (dget String.eqb d fname); rewrite append_to_length; exact Vc.
    - intros j f F; rewrite append_to_nth by lia; assert (j < n0) by (apply nth_error_Some; congruence).
      destruct (Nat.eqb_spec j i); [lia|apply Vl, F].
    - destruct Vf as (r & Er & Fr); rewrite append_to_nth by lia; destruct (Nat.eqb_spec n0 i) as [<-|N].
      + exists (r ++ map (fun x => (Some h, x)) (firstn n b)); rewrite Er, <- app_assoc; split; [reflexivity|apply Forall_app; auto].
      + exists r; auto.
    - intros j L; rewrite append_to_nth by lia; destruct (Nat.eqb_spec j i) as [->|N]; [apply Forall_app; split; [apply Vs, L|exact MK]|apply Vs, L].
    - intros g i' b'; rewrite append_to_length; destruct (Nat.eq_dec g h) as [->|N].
      + rewrite upd_same; intros Q; injection Q as <- <-; split; [exact Li|].
        intros j J; rewrite append_to_nth by lia; destruct (Nat.eqb_spec j i); [lia|apply Lz, J].
      + rewrite upd_other by exact N; intros Q; destruct (Vj g i' b' Q) as [M1 M2]; split; [exact M1|].
        intros j J; rewrite append_to_nth by lia; destruct (Nat.eqb_spec j i) as [->|Nj]; [|apply M2, J].
        rewrite by_app, (M2 i J), by_other by congruence; reflexivity.
    - intros g; destruct (Nat.eq_dec g h) as [->|N].
      + rewrite upd_same, (append_to_by h ino i _ (proj2 Li) (or_introl Lz)), by_same, <- app_assoc, firstn_skipn.
        specialize (Vb h); rewrite E in Vb; exact Vb.
      + rewrite upd_other by exact N; assert (BO : by_handler g (map (fun x => (Some h, x)) (firstn n b)) = []) by (apply by_other; congruence).
        rewrite (append_to_by g ino i _ (proj2 Li) (or_intror BO)), BO, app_nil_r; apply Vb.
  Qed.

  Lemma inv_close : forall ino d o ev h, inv ino d o ev -> (forall i b, o h = Opened A i b -> b = []) -> inv ino d (upd o h (Closed A)) ev.
  Proof.
    intros ino d o ev h [Vk Vc Vm Vo Vl Vf Vs Vj Vb] E; split; auto.
    - intros g i b; destruct (Nat.eq_dec g h) as [->|N]; [rewrite upd_same; discriminate|rewrite upd_other by exact N; apply Vj].
    - intros g; destruct (Nat.eq_dec g h) as [->|N]; [rewrite upd_same|rewrite upd_other by exact N; apply Vb].
      specialize (Vb h); destruct (o h) as [i b|] eqn:Q; [|exact Vb]; rewrite (E i b eq_refl) in Vb; exact Vb.
  Qed.

  Lemma inv_write : forall ino d o ev h i b w, inv ino d o ev -> o h = Opened A i b ->
    inv ino d (upd o h (Opened A i (b ++ w))) (ev ++ [EAccepted A h w]).
  Proof.
    intros ino d o ev h i b w [Vk Vc Vm Vo Vl Vf Vs Vj Vb] E.
    assert (M : moved (ev ++ [EAccepted A h w]) = moved ev) by (rewrite moved_app; apply app_nil_r).
    split; auto; rewrite ?M; auto.
    - intros g i' b'; destruct (Nat.eq_dec g h) as [->|N]; [rewrite upd_same|rewrite upd_other by exact N; apply Vj].
      intros Q; injection Q as <- <-; eapply Vj; exact E.
    - intros g; rewrite accepted_app; cbn [accepted]; rewrite app_nil_r; destruct (Nat.eq_dec g h) as [->|N].
      + rewrite upd_same, Nat.eqb_refl, app_assoc; f_equal; specialize (Vb h); rewrite E in Vb; exact Vb.
      + rewrite upd_other by exact N; destruct (Nat.eqb_spec h g); [congruence|rewrite app_nil_r; apply Vb].
  Qed.

  Lemma inv_move : forall ino d o ev h x i n, inv ino d o ev -> dget String.eqb d fname = Some i ->
    new_names (ev ++ [EMoved A h x n]) ->
    inv ino (dset String.eqb (ddel String.eqb d fname) x i) o (ev ++ [EMoved A h x n]).
  Proof.
    intros ino d o ev h x i n [Vk Vc Vm Vo Vl Vf Vs Vj Vb] E [ND NN].
    assert (M : moved (ev ++ [EMoved A h x n]) = moved ev ++ [x]) by (rewrite moved_app; reflexivity).
    assert (AC : forall g, accepted g (ev ++ [EMoved A h x n]) = accepted g ev) by (intros g; rewrite accepted_app; apply app_nil_r).
    rewrite M in ND, NN; destruct (NN x) as [Nx1 Nx2]; [apply in_or_app; right; left; reflexivity|].
    rewrite E in Vc; destruct Vc as [-> Vc].
    assert (DG : forall y, y <> x -> y <> fname -> dget String.eqb (dset String.eqb (ddel String.eqb d fname) x (n0 + length (moved ev))) y = dget String.eqb d y).
    { intros y Y1 Y2; rewrite (dget_dset String.eqb String.eqb_spec); destruct (String.eqb_spec y x); [contradiction|].
      apply (dget_ddel_other String.eqb String.eqb_spec); congruence. }
    split; auto.
    - apply (NoDup_dset String.eqb String.eqb_spec), NoDup_ddel; exact Vk.
    - rewrite (dget_dset String.eqb String.eqb_spec); destruct (String.eqb_spec fname x); [congruence|].
      rewrite (dget_ddel_same String.eqb String.eqb_spec) by exact Vk; rewrite M, app_length; cbn; lia.
    - rewrite M; intros j y Y; destruct (Nat.lt_ge_cases j (length (moved ev))) as [L|L].
      + rewrite nth_error_app1 in Y by exact L; rewrite DG; [apply Vm, Y| |].
        * intros ->; apply nth_error_In in Y; revert Y ND; clear; intros Y ND; apply NoDup_remove_2 in ND; rewrite app_nil_r in ND; contradiction.
        * apply (NN y); apply in_or_app; left; eapply nth_error_In; exact Y.
      + rewrite nth_error_app2 in Y by exact L; destruct (j - length (moved ev)) as [|q] eqn:Q; [|destruct q; discriminate].
        injection Y as <-; rewrite (dget_dset_same String.eqb String.eqb_spec); f_equal; lia.
    - intros y j Y; rewrite DG; [apply Vo, Y| |]; intros ->; apply nth_error_In in Y; [contradiction|now apply start_names].
    - intros g; rewrite AC; apply Vb.
  Qed.

  Lemma inv_reopen : forall ino d o ev h, inv ino d o ev -> (forall i b, o h = Opened A i b -> b = []) -> new_names ev ->
    match dget String.eqb d fname with
    | Some i => inv ino d (upd o h (Opened A i [])) ev
    | None => inv (ino ++ [[]]) (dset String.eqb d fname (length ino)) (upd o h (Opened A (length ino) [])) ev
    end.
  Proof.
    intros ino d o ev h [Vk Vc Vm Vo Vl Vf Vs Vj Vb] E [ND NN]; destruct (dget String.eqb d fname) as [i|] eqn:D.
    - destruct Vc as [-> Vc]; split; auto.
      + rewrite D; split; [reflexivity|exact Vc].
      + intros g i b; destruct (Nat.eq_dec g h) as [->|N]; [rewrite upd_same|rewrite upd_other by exact N; apply Vj].
        intros Q; injection Q as <- <-; split; [lia|]; intros j J; rewrite nth_overflow by lia; reflexivity.
      + intros g; destruct (Nat.eq_dec g h) as [->|N]; [rewrite upd_same|rewrite upd_other by exact N; apply Vb].
        specialize (Vb h); destruct (o h) as [i b|] eqn:Q; [|exact Vb]; rewrite (E i b eq_refl) in Vb; exact Vb.
    - assert (NTH : forall j, nth j (ino ++ [[]]) [] = nth j ino []).
      { intros j; destruct (Nat.lt_ge_cases j (length ino)) as [L|L]; [apply app_nth1, L|rewrite (nth_overflow ino) by exact L].
        rewrite app_nth2 by exact L; destruct (j - length ino) as [|[|q]]; reflexivity. }
      assert (DG : forall y, y <> fname -> dget String.eqb (dset String.eqb d fname (length ino)) y = dget String.eqb d y).
      { intros y Y; rewrite (dget_dset String.eqb String.eqb_spec); destruct (String.eqb_spec y fname); [contradiction|reflexivity]. }
      split; auto.
      + apply (NoDup_dset String.eqb String.eqb_spec); exact Vk.
      + rewrite (dget_dset_same String.eqb String.eqb_spec), app_length; cbn; lia.
      + intros j x X; rewrite DG; [apply Vm, X|apply (NN x); eapply nth_error_In; exact X].
      + intros x j X; rewrite DG; [apply Vo, X|intros ->; apply nth_error_In in X; now apply start_names].
      + intros j f F; rewrite NTH; apply Vl, F.
      + rewrite NTH; exact Vf.
      + intros j L; rewrite NTH; apply Vs, L.
      + intros g i b; rewrite app_length; cbn; destruct (Nat.eq_dec g h) as [->|N].
        * rewrite upd_same; intros Q; injection Q as <- <-; split; [lia|]; intros j J; rewrite NTH, nth_overflow by lia; reflexivity.
        * rewrite upd_other by exact N; intros Q; destruct (Vj g i b Q) as [L1 L2]; split; [lia|intros j J; rewrite NTH; apply L2, J].
      + intros g; rewrite concat_app, by_app; change (by_handler g (concat [[]])) with (@nil A); rewrite app_nil_r; destruct (Nat.eq_dec g h) as [->|N]; [rewrite upd_same|rewrite upd_other by exact N; apply Vb].
        specialize (Vb h); destruct (o h) as [i b|] eqn:Q; [|exact Vb]; rewrite (E i b eq_refl) in Vb; exact Vb.
  Qed.

  Lemma inv_neutral : forall ino d o ev e, inv ino d o ev -> (forall h, accepted h e = []) -> moved e = [] -> inv ino d o (ev ++ e).
  Proof.
    intros ino d o ev e [Vk Vc Vm Vo Vl Vf Vs Vj Vb] Ea Em.
    assert (M : moved (ev ++ e) = moved ev) by (rewrite moved_app, Em; apply app_nil_r).
    split; auto; rewrite ?M; auto; intros g; rewrite accepted_app, Ea, app_nil_r; apply Vb.
  Qed.

  Definition finv (s : fstate) (ev : list fev) : Prop := inv (inodes A s) (dir A s) (obj A s) ev.
  Lemma finv_emit : forall s ev h n, finv s ev -> finv (emit A s h n) ev.
  Proof.
    intros s ev h n I; unfold emit, finv; destruct (obj A s h) as [i b|] eqn:E; [|exact I]; cbn; apply inv_emit; assumption.
  Qed.
  Lemma emit_all_empty : forall s h i b, obj A (emit_all A s h) h = Opened A i b -> b = [].
  Proof.
    intros s h i b; unfold emit_all, emit; destruct (obj A s h) as [j x|] eqn:E; [|congruence]; cbn; rewrite upd_same.
    rewrite skipn_all; congruence.
  Qed.
  Lemma finv_emit_all : forall s ev h, finv s ev -> finv (emit_all A s h) ev.
  Proof. intros s ev h I; unfold emit_all; destruct (obj A s h); [apply finv_emit|]; exact I. Qed.

  Lemma release_fs : forall s t, inodes A (release A c s t) = inodes A s /\ dir A (release A c s t) = dir A s /\ obj A (release A c s t) = obj A s.
  Proof. intros s t; unfold release; destruct (f_locked c); repeat split. Qed.
  Lemma acquire_fs : forall s t s', acquire A c s t = Some s' -> inodes A s' = inodes A s /\ dir A s' = dir A s /\ obj A s' = obj A s.
  Proof.
    intros s t s'; unfold acquire; destruct (f_locked c); [destruct (flk A s (f_of c t)); [discriminate|]|]; intros E; injection E as <-; repeat split.
  Qed.
  Lemma finv_same : forall s s' ev, inodes A s' = inodes A s /\ dir A s' = dir A s /\ obj A s' = obj A s -> finv s ev -> finv s' ev.
  Proof. intros s s' ev (E1 & E2 & E3) I; unfold finv; rewrite E1, E2, E3; exact I. Qed.

  (** A thread between close and open has no buffer to lose, or somebody opened the file anew. *)
  Lemma finv_reopen : forall s ev h, finv s ev -> buffer s h = [] -> new_names ev -> finv (reopen A c s h) ev.
  Proof.
    intros s ev h I B N; unfold finv, reopen.
    pose proof (inv_reopen (inodes A s) (dir A s) (obj A s) ev h I) as K.
    assert (BE : forall i b, obj A s h = Opened A i b -> b = []) by (intros i b E; unfold buffer in B; rewrite E in B; exact B).
    specialize (K BE N); destruct (dget String.eqb (dir A s) fname) as [i|]; exact K.
  Qed.

  (** A handler is closed, or its buffer is as it should be, when a thread of it is about to open the file again: in code
      without the thread lock another thread can not have written, since the object is closed until then. *)
  Definition closing (s : fstate) : Prop := forall t w, pcs A s t = Move3 A w -> obj A s (f_of c t) = Closed A.
  (** Only the holder of the rotator's lock is between the check and the opening. *)
  Definition rotating (p : fpc A) : bool := match p with Check _ _ | Move0 _ _ _ | Move1 _ _ _ | Move2 _ _ | Move3 _ _ => true | _ => false end.
  Definition rot_inv (s : fstate) : Prop := forall t, rotating (pcs A s t) = true <-> rlk A s (f_of c t) = Some t.

  Lemma rot_inv_step : forall s x s' e, rot_inv s -> fstep A c s x = Some (s', e) -> rot_inv s'.
  Proof.
    clear one_fs start_names.
    intros s x s' e I E; destruct x as [t ch|h n]; cbn [fstep] in E.
    2:{ injection E as <- <-; unfold emit; destruct (obj A s h); exact I. }
    change (forall t, rotating (pcs A s t) = true <-> rlk A s (f_of c t) = Some t) in I.
    assert (KEEP : forall s1 p, rlk A s1 = rlk A s -> pcs A s1 = pcs A s -> rotating p = rotating (pcs A s t) -> rot_inv (go A s1 t p)).
    { intros s1 p E1 E2 E3 u; cbn; rewrite E1, E2; destruct (Nat.eq_dec u t) as [->|N]; [rewrite upd_same, E3|rewrite upd_other by exact N]; apply I. }
    assert (DROP : forall s1 p, rlk A s1 = upd (rlk A s) (f_of c t) None -> pcs A s1 = pcs A s -> rotating (pcs A s t) = true -> rotating p = false -> rot_inv (go A s1 t p)).
    { intros s1 p E1 E2 E3 E4 u; cbn; rewrite E1, E2; apply I in E3; destruct (Nat.eq_dec u t) as [->|N].
      - rewrite !upd_same, E4; split; discriminate.
      - rewrite (upd_other _ (pcs A s)) by exact N; rewrite I; destruct (Nat.eq_dec (f_of c u) (f_of c t)) as [Q|Q].
        + rewrite Q, upd_same, E3; split; [intros K; injection K as ->; contradiction|discriminate].
        + rewrite upd_other by exact Q; reflexivity. }
    assert (REL : forall s1, rlk A (release A c s1 t) = rlk A s1 /\ pcs A (release A c s1 t) = pcs A s1) by (intros s1; unfold release; destruct (f_locked c); split; reflexivity).
    assert (ACQ : forall s1, acquire A c s t = Some s1 -> rlk A s1 = rlk A s /\ pcs A s1 = pcs A s).
    { intros s1; unfold acquire; destruct (f_locked c); [destruct (flk A s (f_of c t)); [discriminate|]|]; intros Q; injection Q as <-; split; reflexivity. }
    assert (EMI : forall h, rlk A (emit_all A s h) = rlk A s /\ pcs A (emit_all A s h) = pcs A s) by (intros h; unfold emit_all, emit; destruct (obj A s h) eqn:O; split; reflexivity).
    destruct (pcs A s t) eqn:P.
    - destruct (progs A s t); [discriminate|]; injection E as <- <-; apply KEEP; reflexivity.
    - destruct (rlk A s (f_of c t)) eqn:K; [discriminate|]; injection E as <- <-; intros u; cbn; destruct (Nat.eq_dec u t) as [->|N].
      + rewrite !upd_same; cbn; tauto.
      + rewrite (upd_other _ (pcs A s)) by exact N; rewrite I; destruct (Nat.eq_dec (f_of c u) (f_of c t)) as [Q|Q].
        * rewrite Q, upd_same, K; split; [discriminate|intros X; injection X as ->; contradiction].
        * rewrite upd_other by exact Q; reflexivity.
    - destruct (c_dest ch); injection E as <- <-; [apply KEEP; reflexivity|apply DROP; reflexivity].
    - destruct (acquire A c s t) as [s1|] eqn:Q; [|discriminate]; injection E as <- <-; destruct (ACQ _ eq_refl); apply KEEP; auto.
    - destruct (if c_move ch then move A c s d else None) as [s1|] eqn:M; injection E as <- <-.
      + destruct (c_move ch); [|discriminate]; unfold move in M; destruct (dget String.eqb (dir A s) fname); [|discriminate].
        injection M as <-; apply KEEP; [destruct (f_cross c); reflexivity|destruct (f_cross c); reflexivity|reflexivity].
      + destruct (REL s) as [R1 R2]; apply DROP; cbn; rewrite ?R1, ?R2; reflexivity.
    - injection E as <- <-; destruct (EMI (f_of c t)); apply KEEP; cbn; auto.
    - injection E as <- <-; destruct (REL (if c_open ch then reopen A c s (f_of c t) else s)) as [R1 R2].
      assert (RE : rlk A (reopen A c s (f_of c t)) = rlk A s /\ pcs A (reopen A c s (f_of c t)) = pcs A s) by (unfold reopen; destruct (dget _ _ _); split; reflexivity).
      destruct RE; apply DROP; cbn; rewrite ?R1, ?R2; destruct (c_open ch); congruence.
    - destruct (acquire A c s t) as [s1|] eqn:Q; [|discriminate]; injection E as <- <-; destruct (ACQ _ eq_refl); apply KEEP; auto.
    - destruct (obj A s (f_of c t)) as [i b|]; injection E as <- <-; match goal with |- context [release A c ?z t] => destruct (REL z) as [R1 R2] end;
      apply KEEP; rewrite ?R1, ?R2; try reflexivity; destruct (f_forced c); reflexivity.
    - destruct (acquire A c s t) as [s1|] eqn:Q; [|discriminate]; injection E as <- <-; destruct (ACQ _ eq_refl); apply KEEP; auto.
    - injection E as <- <-; destruct (REL (emit_all A s (f_of c t))) as [R1 R2]; destruct (EMI (f_of c t)); apply KEEP; cbn; congruence.
  Qed.

  Lemma closing_step : forall s x s' e, rot_inv s -> closing s -> fstep A c s x = Some (s', e) -> closing s'.
  Proof.
    intros s x s' e RI I E; destruct x as [t ch|h n]; cbn [fstep] in E.
    2:{ injection E as <- <-; intros u w P; assert (P' : pcs A s u = Move3 A w) by (unfold emit in P; destruct (obj A s h); exact P).
        unfold emit; destruct (obj A s h) as [i b|] eqn:O; [|apply (I u w P')]; cbn.
        destruct (Nat.eq_dec (f_of c u) h) as [Q|Q]; [|rewrite upd_other by exact Q; apply (I u w P')].
        exfalso; pose proof (I u w P'); congruence. }
    assert (KEEP : forall s1 p, obj A s1 = obj A s -> pcs A s1 = pcs A s -> (forall w, p <> Move3 A w) -> closing (go A s1 t p)).
    { intros s1 p E1 E2 E3 u w; cbn; rewrite E1, E2; destruct (Nat.eq_dec u t) as [->|N]; [rewrite upd_same; intros ->; now destruct (E3 w)|rewrite upd_other by exact N; apply I]. }
    (* a thread of the same handler in the middle of a rotation excludes the others there *)
    assert (EXC : rotating (pcs A s t) = true -> forall u w, u <> t -> pcs A s u = Move3 A w -> f_of c u <> f_of c t).
    { intros R u w N P Q; assert (R2 : rotating (pcs A s u) = true) by (rewrite P; reflexivity); apply RI in R; apply RI in R2; congruence. }
    assert (REL : forall s1, obj A (release A c s1 t) = obj A s1 /\ pcs A (release A c s1 t) = pcs A s1) by (intros s1; unfold release; destruct (f_locked c); split; reflexivity).
    assert (ACQ : forall s1, acquire A c s t = Some s1 -> obj A s1 = obj A s /\ pcs A s1 = pcs A s).
    { intros s1; unfold acquire; destruct (f_locked c); [destruct (flk A s (f_of c t)); [discriminate|]|]; intros Q; injection Q as <-; split; reflexivity. }
    destruct (pcs A s t) eqn:P.
    - destruct (progs A s t); [discriminate|]; injection E as <- <-; apply KEEP; [reflexivity|reflexivity|discriminate].
    - destruct (rlk A s (f_of c t)) eqn:K; [discriminate|]; injection E as <- <-; apply KEEP; [reflexivity|reflexivity|discriminate].
    - destruct (c_dest ch); injection E as <- <-; apply KEEP; try reflexivity; discriminate.
    - destruct (acquire A c s t) as [s1|] eqn:Q; [|discriminate]; injection E as <- <-; destruct (ACQ _ eq_refl); apply KEEP; auto; discriminate.
    - destruct (if c_move ch then move A c s d else None) as [s1|] eqn:M; injection E as <- <-.
      + destruct (c_move ch); [|discriminate]; unfold move in M; destruct (dget String.eqb (dir A s) fname); [|discriminate].
        injection M as <-; rewrite one_fs; apply KEEP; try reflexivity; discriminate.
      + destruct (REL s) as [R1 R2]; apply KEEP; cbn; rewrite ?R1, ?R2; try reflexivity; discriminate.
    - injection E as <- <-; intros u w0 U; cbn in U |- *; destruct (Nat.eq_dec u t) as [->|N]; [apply upd_same|].
      rewrite upd_other in U by exact N; assert (U' : pcs A s u = Move3 A w0) by (unfold emit_all, emit in U; destruct (obj A s (f_of c t)) eqn:O; exact U).
      pose proof (EXC eq_refl u w0 N U') as Q; rewrite upd_other by exact Q.
      unfold emit_all, emit; destruct (obj A s (f_of c t)) eqn:O; [cbn; rewrite upd_other by exact Q|]; apply (I u w0 U').
    - injection E as <- <-; intros u w0; cbn; destruct (REL (if c_open ch then reopen A c s (f_of c t) else s)) as [R1 R2]; rewrite R1, R2.
      destruct (Nat.eq_dec u t) as [->|N]; [rewrite upd_same; discriminate|rewrite upd_other by exact N].
      intros U; assert (U' : pcs A s u = Move3 A w0) by (destruct (c_open ch); [unfold reopen in U; destruct (dget _ _ _) in U|]; exact U).
      destruct (c_open ch); [|apply (I u w0 U')]; unfold reopen; pose proof (EXC eq_refl u w0 N U') as Q.
      destruct (dget _ _ _); cbn; rewrite upd_other by exact Q; apply (I u w0 U').
    - destruct (acquire A c s t) as [s1|] eqn:Q; [|discriminate]; injection E as <- <-; destruct (ACQ _ eq_refl); apply KEEP; auto; discriminate.
    - destruct (obj A s (f_of c t)) as [i b|] eqn:O; injection E as <- <-.
      + intros u w0; cbn; match goal with |- context [release A c ?z t] => destruct (REL z) as [R1 R2] end; rewrite R1, R2; cbn.
        destruct (Nat.eq_dec u t) as [->|N]; [rewrite upd_same; destruct (f_forced c); discriminate|rewrite upd_other by exact N].
        intros U; pose proof (I u w0 U) as C; rewrite upd_other; [exact C|congruence].
      + destruct (REL s) as [R1 R2]; apply KEEP; auto; discriminate.
    - destruct (acquire A c s t) as [s1|] eqn:Q; [|discriminate]; injection E as <- <-; destruct (ACQ _ eq_refl); apply KEEP; auto; discriminate.
    - injection E as <- <-; destruct (REL (emit_all A s (f_of c t))) as [R1 R2]; intros u w0; cbn; rewrite R1, R2.
      destruct (Nat.eq_dec u t) as [->|N]; [rewrite upd_same; discriminate|rewrite upd_other by exact N].
      intros U; assert (U' : pcs A s u = Move3 A w0) by (unfold emit_all, emit in U; destruct (obj A s (f_of c t)) eqn:O; exact U).
      pose proof (I u w0 U') as C; unfold emit_all, emit; destruct (obj A s (f_of c t)) eqn:O; [cbn|exact C].
      rewrite upd_other; [exact C|congruence].
  Qed.

  Lemma new_names_prefix : forall a b, new_names (a ++ b) -> new_names a.
  Proof.
    intros a b [N F]; rewrite moved_app in N, F; split.
    - clear F; induction (moved a) as [|x r IH]; [constructor|]; cbn in N; inversion N as [|? ? N1 N2]; subst; constructor; [|apply IH, N2].
      intros K; apply N1, in_or_app; left; exact K.
    - intros d D; apply F, in_or_app; left; exact D.
  Qed.

  Lemma finv_step : forall s ev x s' e, finv s ev -> closing s -> new_names (ev ++ e) -> fstep A c s x = Some (s', e) -> finv s' (ev ++ e).
  Proof.
    intros s ev x s' e I CL NN E; destruct x as [t ch|h n]; cbn [fstep] in E.
    2:{ injection E as <- <-; rewrite app_nil_r; apply finv_emit, I. }
    assert (SAME : forall s1 p, inodes A s1 = inodes A s /\ dir A s1 = dir A s /\ obj A s1 = obj A s -> finv (go A s1 t p) ev).
    { intros s1 p H; apply (finv_same s); [exact H|exact I]. }
    destruct (pcs A s t) eqn:P.
    - destruct (progs A s t); [discriminate|]; injection E as <- <-; rewrite app_nil_r; apply SAME; repeat split.
    - destruct (rlk A s (f_of c t)) eqn:K; [discriminate|]; injection E as <- <-; rewrite app_nil_r; apply SAME; repeat split.
    - destruct (c_dest ch); injection E as <- <-; apply inv_neutral; try reflexivity; apply SAME; repeat split.
    - destruct (acquire A c s t) as [s1|] eqn:Q; [|discriminate]; injection E as <- <-; rewrite app_nil_r; apply SAME, (acquire_fs s t); exact Q.
    - destruct (if c_move ch then move A c s d else None) as [s1|] eqn:M; injection E as <- <-.
      + destruct (c_move ch); [|discriminate]; unfold move in M; destruct (dget String.eqb (dir A s) fname) as [i|] eqn:D; [|discriminate].
        injection M as <-; rewrite one_fs; unfold finv; cbn; apply inv_move; assumption.
      + rewrite app_nil_r; apply (finv_same s); [|exact I]; cbn; apply release_fs.
    - injection E as <- <-; rewrite app_nil_r; unfold finv; cbn; apply inv_close; [apply finv_emit_all, I|].
      intros i b; apply emit_all_empty.
    - injection E as <- <-; rewrite app_nil_r in *; eapply (finv_same (if c_open ch then reopen A c s (f_of c t) else s)); [exact (release_fs _ t)|].
      destruct (c_open ch); [|exact I]; apply finv_reopen; [exact I| |exact NN].
      unfold buffer; rewrite (CL t _ P); reflexivity.
    - destruct (acquire A c s t) as [s1|] eqn:Q; [|discriminate]; injection E as <- <-; rewrite app_nil_r; apply SAME, (acquire_fs s t); exact Q.
    - destruct (obj A s (f_of c t)) as [i b|] eqn:O; injection E as <- <-.
      + eapply (finv_same (set_obj A s (f_of c t) (Opened A i (b ++ s0)))); [exact (release_fs _ t)|].
        unfold finv; cbn; apply inv_write; [exact I|exact O].
      + apply inv_neutral; try reflexivity; apply SAME, release_fs.
    - destruct (acquire A c s t) as [s1|] eqn:Q; [|discriminate]; injection E as <- <-; rewrite app_nil_r; apply SAME, (acquire_fs s t); exact Q.
    - injection E as <- <-; rewrite app_nil_r; eapply (finv_same (emit_all A s (f_of c t))); [exact (release_fs _ t)|apply finv_emit_all, I].
  Qed.

  Lemma finv_run : forall l s ev s' e, finv s ev -> rot_inv s -> closing s -> new_names (ev ++ e) -> frun A c s l = Some (s', e) ->
    finv s' (ev ++ e) /\ rot_inv s' /\ closing s'.
  Proof.
    induction l as [|x r IH]; intros s ev s' e I R C N E; cbn in E.
    - injection E as <- <-; rewrite app_nil_r; auto.
    - destruct (fstep A c s x) as [[s1 e1]|] eqn:E1; [|discriminate]; destruct (frun A c s1 r) as [[s2 e2]|] eqn:E2; [|discriminate].
      injection E as <- <-; rewrite app_assoc in *.
      apply (IH s1 (ev ++ e1)); [|eapply rot_inv_step; eassumption|eapply closing_step; eassumption|exact N|exact E2].
      eapply finv_step; eauto; eapply new_names_prefix; exact N.
  Qed.
  Lemma start_run : forall p0 l s ev, frun A c (fstart A c others old p0) l = Some (s, ev) -> new_names ev -> finv s ev /\ rot_inv s /\ closing s.
  Proof.
    intros p0 l s ev E N; apply (finv_run l (fstart A c others old p0) []); [apply inv_start| | |exact N|exact E].
    - intros t; cbn; split; discriminate.
    - intros t w; cbn; discriminate.
  Qed.

  Lemma nth_skip : forall B (l : list B) n j d, nth j (skipn n l) d = nth (n + j) l d.
  Proof. induction l as [|x l IH]; intros [|n] j d; cbn; auto; [destruct j; reflexivity]. Qed.
  Lemma nth_first : forall B (l : list B) n j d, j < n -> nth j (firstn n l) d = nth j l d.
  Proof. induction l as [|x l IH]; intros [|n] [|j] d L; cbn; auto; try lia; apply IH; lia. Qed.
  Lemma concat_files : forall s ev, finv s ev -> everything s fname ev = concat (skipn n0 (inodes A s)).
  Proof.
    intros s ev [Vk Vc Vm Vo Vl Vf Vs Vj Vb]; unfold everything; set (k := length (moved ev)) in *; set (S := skipn n0 (inodes A s)).
    assert (LS : length S = length (inodes A s) - n0) by apply skipn_length.
    assert (M : map (contents s) (moved ev) = firstn k S).
    { apply (nth_ext _ _ [] []).
      - rewrite map_length, firstn_length, LS; fold k; destruct (dget String.eqb (dir A s) fname); lia.
      - rewrite map_length; intros j L; fold k in L.
        destruct (nth_error (moved ev) j) as [x|] eqn:X; [|apply nth_error_None in X; fold k in X; lia].
        rewrite (nth_indep _ [] (contents s x)) by (rewrite map_length; exact L).
        rewrite map_nth, (nth_error_nth _ _ _ X); unfold contents, read; rewrite (Vm j x X).
        rewrite nth_first by exact L; unfold S; rewrite nth_skip; reflexivity. }
    rewrite M; rewrite <- (firstn_skipn k S) at 2; rewrite concat_app; f_equal.
    unfold contents, read; destruct (dget String.eqb (dir A s) fname) as [i|].
    - destruct Vc as [-> Vc]; rewrite <- (Nat.add_0_r (n0 + k)), <- Nat.add_assoc.
      rewrite <- nth_skip; fold S; rewrite <- nth_skip.
      assert (L1 : length (skipn k S) = 1) by (rewrite skipn_length, LS; lia).
      destruct (skipn k S) as [|z [|y q]]; try discriminate; cbn; symmetry; apply app_nil_r.
    - rewrite skipn_all2 by lia; reflexivity.
  Qed.

  (** C39: at every moment of every interleaving (any number of threads, of any number of handlers in one or several processes,
      with or without locks, with any rules and any failures of moves and openings), if the names of the rotated files are new:
      the rotated files in order and then the current file consist of the old text and, of every handler, exactly what it
      accepted, in order, up to what is still in its buffer. *)
  Theorem C39_nothing_lost : forall p0 l s ev, frun A c (fstart A c others old p0) l = Some (s, ev) -> new_names ev ->
    (forall h, by_handler h (everything s fname ev) ++ buffer s h = accepted h ev) /\
    exists r, everything s fname ev = no_mark old ++ r /\ Forall (fun p => fst p <> None) r.
  Proof.
    intros p0 l s ev E N; destruct (start_run p0 l s ev E N) as (I & _ & _); rewrite (concat_files s ev I).
    destruct I as [Vk Vc Vm Vo Vl Vf Vs Vj Vb]; split.
    - intros h; rewrite <- (Vb h); f_equal; rewrite <- (firstn_skipn n0 (inodes A s)) at 2; rewrite concat_app, by_app.
      assert (Z : by_handler h (concat (firstn n0 (inodes A s))) = []); [|rewrite Z; reflexivity].
      assert (G : forall x, In x (firstn n0 (inodes A s)) -> by_handler h x = []).
      { intros x X; apply (In_nth _ _ []) in X; destruct X as (j & L & X); rewrite firstn_length in L.
        assert (Lj : j < n0) by lia; rewrite nth_first in X by exact Lj.
        destruct (nth_error others j) as [f|] eqn:F; [|apply nth_error_None in F; lia].
        rewrite (Vl j f F) in X; subst x; apply by_none. }
      clear -G; induction (firstn n0 (inodes A s)) as [|y q IH]; [reflexivity|]; cbn [concat]; rewrite by_app, (G y) by (left; reflexivity).
      apply IH; intros x X; apply G; right; exact X.
    - destruct Vf as (r & Er & Fr).
      assert (L : n0 < length (inodes A s) \/ (length (inodes A s) = n0 /\ old = [])).
      { destruct (Nat.lt_ge_cases n0 (length (inodes A s))) as [L|L]; [left; exact L|right].
        assert (length (inodes A s) = n0) by (destruct (dget String.eqb (dir A s) fname) as [i|]; [destruct Vc; lia|lia]).
        rewrite nth_overflow in Er by exact L; split; [assumption|]; destruct old; [reflexivity|discriminate]. }
      destruct L as [L|[L ->]].
      + destruct (skipn n0 (inodes A s)) as [|y q] eqn:S; [assert (K : length (skipn n0 (inodes A s)) = 0) by (rewrite S; reflexivity); rewrite skipn_length in K; lia|].
        assert (Y : y = no_mark old ++ r) by (rewrite <- Er, <- (Nat.add_0_r n0) at 1; rewrite <- nth_skip, S; reflexivity).
        exists (r ++ concat q); subst y; cbn [concat]; rewrite <- app_assoc; split; [reflexivity|apply Forall_app; split; [exact Fr|]].
        assert (G : forall x, In x q -> Forall (fun p : option nat * A => fst p <> None) x).
        { intros x X; apply (In_nth _ _ []) in X; destruct X as (j & Lj & <-).
          pose proof (nth_skip text (inodes A s) n0 (1 + j) []) as NS; rewrite S in NS; cbn [nth] in NS.
          assert (Q : Forall (fun p : option nat * A => fst p <> None) (nth (n0 + (1 + j)) (inodes A s) [])) by (apply Vs; lia).
          rewrite <- NS in Q; exact Q. }
        clear -G; induction q as [|x q IH]; [constructor|]; cbn; apply Forall_app; split; [apply G; left; reflexivity|apply IH; intros z Z; apply G; right; exact Z].
      + exists []; rewrite skipn_all2 by lia; split; [reflexivity|constructor].
  Qed.

  (** C39: one handler (any number of threads): the files are the old text followed by what was accepted, in order. *)
  Theorem C39_one_handler : forall g p0 l s ev, (forall t, f_of c t = g) ->
    frun A c (fstart A c others old p0) l = Some (s, ev) -> new_names ev ->
    map snd (everything s fname ev) ++ buffer s g = old ++ accepted g ev.
  Proof.
    intros g p0 l s ev O E N; destruct (C39_nothing_lost p0 l s ev E N) as [B (r & Er & Fr)].
    assert (ONLY : forall h, h <> g -> accepted h ev = []).
    { intros h Nh; clear B Er Fr r N; revert s ev E; generalize (fstart A c others old p0); induction l as [|x l IH]; intros s0 s ev E; cbn in E.
      - injection E as <- <-; reflexivity.
      - destruct (fstep A c s0 x) as [[s1 e1]|] eqn:E1; [|discriminate]; destruct (frun A c s1 l) as [[s2 e2]|] eqn:E2; [|discriminate].
        injection E as <- <-; rewrite accepted_app, (IH _ _ _ E2), app_nil_r.
        destruct x as [t ch|h' n]; cbn [fstep] in E1; [|injection E1 as <- <-; reflexivity].
        assert (Z : forall w, accepted h [EAccepted A (f_of c t) w] = []).
        { intros w; cbn; rewrite O; destruct (Nat.eqb_spec g h); [congruence|reflexivity]. }
        destruct (pcs A s0 t).
        + destruct (progs A s0 t); [discriminate|injection E1 as <- <-; reflexivity].
        + destruct (rlk A s0 (f_of c t)); [discriminate|injection E1 as <- <-; reflexivity].
        + destruct (c_dest ch); injection E1 as <- <-; reflexivity.
        + destruct (acquire A c s0 t); [injection E1 as <- <-; reflexivity|discriminate].
        + destruct (if c_move ch then move A c s0 d else None); injection E1 as <- <-; reflexivity.
        + injection E1 as <- <-; reflexivity.
        + injection E1 as <- <-; reflexivity.
        + destruct (acquire A c s0 t); [injection E1 as <- <-; reflexivity|discriminate].
        + destruct (obj A s0 (f_of c t)); injection E1 as <- <-; [apply Z|reflexivity].
        + destruct (acquire A c s0 t); [injection E1 as <- <-; reflexivity|discriminate].
        + injection E1 as <- <-; reflexivity. }
    rewrite <- (B g), Er, map_app, by_app; unfold no_mark at 1; rewrite map_map; cbn [snd]; rewrite map_id.
    rewrite <- !app_assoc; f_equal; rewrite by_none; cbn [app]; f_equal.
    assert (G : forall h, h <> g -> by_handler h r = []).
    { intros h Nh; specialize (B h); rewrite (ONLY h Nh), Er, by_app in B; apply app_eq_nil in B; destruct B as [B _]; apply app_eq_nil in B; apply B. }
    clear -Fr G; induction Fr as [|[o x] r H Fr IH]; [reflexivity|]; destruct o as [h|]; [|exfalso; now apply H].
    destruct (Nat.eq_dec h g) as [->|Nh].
    - unfold by_handler; cbn; rewrite Nat.eqb_refl; cbn; f_equal; apply IH.
      intros h Nh; specialize (G h Nh); unfold by_handler in G |- *; cbn in G; destruct (Nat.eqb_spec g h); [congruence|exact G].
    - exfalso; specialize (G h Nh); unfold by_handler in G; cbn in G; rewrite Nat.eqb_refl in G; discriminate.
  Qed.

  (** C39: other files are not touched. *)
  Theorem C39_other_files : forall p0 l s ev name t, frun A c (fstart A c others old p0) l = Some (s, ev) -> new_names ev ->
    In (name, t) others -> read A s name = Some (no_mark t).
  Proof.
    intros p0 l s ev name t E N M; destruct (start_run p0 l s ev E N) as ([Vk Vc Vm Vo Vl Vf Vs Vj Vb] & _ & _).
    apply In_nth_error in M; destruct M as (j & M); unfold read.
    assert (K : nth_error (map fst others) j = Some name) by (rewrite nth_error_map, M; reflexivity).
    rewrite (Vo name j K), (Vl j _ M); reflexivity.
  Qed.
End FilesProps.
