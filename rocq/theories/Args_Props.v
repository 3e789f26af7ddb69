(** C30: the arguments handlers= and extra_fields= of a decorator. *)
From Coq Require Import Ascii Lia Permutation.
From Verif Require Import Base Tree_Model Tree_Spec Tree_Heap Tree_Ops Tree_Project Tree_Proofs Pony_Model Pony_Props Args_Model Args_Proofs.
Local Open Scope string_scope.
Local Open Scope list_scope.

Section HandlersProps.
  Context {V : Type}.
  (** str.isidentifier; the check of a handler at Config.add_handlers; the check of an object passed to a decorator: arbitrary. *)
  Variable kc : string -> bool.
  Variable vc : V -> bool.
  Variable is_handler : V -> bool.
  (** Any history of operations on the global tree and of decorators created before. *)
  Notation dhist := (drun kc vc is_handler (tree_empty (V := V))).
  Notation mhist ops := (final (map_step kc vc) (map_empty (V := V)) (tops ops)).
  Notation decorate := (get_handlers kc is_handler).
  Notation ok_history := (Forall (good_dop (V := V) kc)).
  Notation names_ok := (Forall (good kc)).
  Notation texts := (map KStr).

  Lemma hist_map : forall ops, ok_history ops -> exists loc, Shape loc (dhist ops) /\ NoDup (dkeys (mhist ops)) /\
    forall p, lookup (dhist ops) 0 p = dget path_eqb (mhist ops) p.
  Proof.
    intros ops G. destruct (Rel_empty (V := V)) as (b & loc & I & N & Hl). apply (drun_map kc vc is_handler ops loc tree_empty map_empty); try assumption.
    split; apply I.
  Qed.

  (** Creating decorators, with whatever arguments, accepted or not, never changes the global tree. *)
  Theorem C30_global_unchanged : forall ops, ok_history ops ->
    (forall k, tree_get kc (dhist ops) 0 k = match parse kc k with None => Err EKeyError | Some p => Ok (dget path_eqb (mhist ops) p) end) /\
    exists L : list (path * V), tree_iter (dhist ops) 0 = Ok (map snd L) /\ NoDup (map fst L) /\
      forall p v, In (p, v) L <-> dget path_eqb (mhist ops) p = Some v.
  Proof.
    intros ops G. destruct (hist_map ops G) as (loc & S & N & Hl). split.
    - intros k; rewrite tree_get_spec. destruct (parse kc k); [rewrite Hl|]; reflexivity.
    - destruct (bfs_values_spec loc (dhist ops) 0 (proj1 S) (wf_pos _ _ (proj1 S))) as (L & E & ND & H & _).
      exists L; unfold tree_iter; rewrite E; split; [reflexivity|]; split; [exact ND|]. intros p v; rewrite H, Hl; reflexivity.
  Qed.

  (** What is refused, and how; nothing is created then in the first three cases. *)
  Theorem C30_handlers_refused : forall ops names, ok_history ops ->
    decorate (dhist ops) HNone names = (dhist ops, Ok 0) /\
    decorate (dhist ops) HOther names = (dhist ops, Err EValueError) /\
    (forall l v, In (AObj v) l -> is_handler v = false -> decorate (dhist ops) (HSeq l) names = (dhist ops, Err EHandlerNotFound)) /\
    (forall l, (forall v, In (AObj v) l -> is_handler v = true) ->
       forall good_paths s bad, strings l = good_paths ++ s :: bad ->
       Forall (fun x => exists n p, parse kc (KStr x) = Some (n :: p)) good_paths ->
       (parse kc (KStr s) = None -> snd (decorate (dhist ops) (HSeq l) names) = Err EKeyError) /\
       (s = "." -> snd (decorate (dhist ops) (HSeq l) names) = Err EValueError)).
  Proof.
    intros ops names G. split; [reflexivity|]; split; [reflexivity|]; split.
    - intros l v Hin Hv. cbn [get_handlers]. rewrite classify_ok.
      assert (F : forallb is_handler (objects l) = false).
      { apply not_true_iff_false; intros F; rewrite forallb_forall in F. rewrite (F v) in Hv; [discriminate|].
        apply in_flat_map; exists (AObj v); split; [exact Hin|left; reflexivity]. }
      rewrite F; reflexivity.
    - intros l Hobj good_paths s bad El Gp.
      assert (F : forallb is_handler (objects l) = true).
      { apply forallb_forall; intros v Hv; apply in_flat_map in Hv; destruct Hv as ([x|x] & Hx & Hv); [destruct Hv|]. destruct Hv as [<-|[]]; apply Hobj, Hx. }
      cbn [get_handlers]; rewrite classify_ok, F.
      destruct (hist_map ops G) as (loc & S & N & Hl).
      destruct (project_ok kc (texts (strings l)) (length (dhist ops)) loc (dhist ops) (proj1 (Shape_Inv _ _) S)) as (loc1 & h1 & res & E & _ & _ & _ & _ & _ & _ & Rest).
      assert (Sp : spec_project (V := V) kc (texts (strings l)) = spec_project kc (texts (s :: bad))).
      { rewrite El; clear - Gp; induction good_paths as [|x g IH]; [reflexivity|]. inversion Gp as [|y z (n & p & Ex) Gz]; subst.
        cbn [app map spec_project]; rewrite Ex; apply (IH Gz). }
      rewrite Sp in Rest; cbn [map spec_project] in Rest. split.
      + intros Es; rewrite Es in Rest; rewrite E, Rest; reflexivity.
      + intros ->; cbn in Rest; rewrite E, Rest; reflexivity.
  Qed.

  Lemma decorate_ok : forall ops l names h1 r, ok_history ops -> names_ok names -> decorate (dhist ops) (HSeq l) names = (h1, Ok r) ->
    exists loc1 ps own, Shape loc1 h1 /\ local_root loc1 h1 r /\ in_ps ps loc1 h1 r /\ gates_ok loc1 h1 r /\
      (forall q, lookup h1 0 q = dget path_eqb (mhist ops) q) /\ NoDup (dkeys (mhist ops)) /\
      Forall2 (fun s p => parse kc (KStr s) = Some p) (strings l) ps /\ Forall (fun p => p <> []) ps /\
      forallb is_handler (objects l) = true /\ map snd own = objects l /\ NoDup (dkeys own) /\
      (forall n, In n (dkeys own) -> In (Ok n) names /\ good_name kc n /\ forall p, In p ps -> ~ prefix p [n] /\ ~ prefix [n] p) /\
      (forall q, (forall p, In p ps -> ~ prefix p q) -> lookup h1 r q = owns own q).
  Proof.
    intros ops l names h1 r G Gn E. destruct (hist_map ops G) as (loc & S & N & Hl).
    cbn [get_handlers] in E; rewrite classify_ok in E. destruct (forallb is_handler (objects l)) eqn:F; [|discriminate].
    destruct (project_ok kc (texts (strings l)) (length (dhist ops)) loc (dhist ops) (proj1 (Shape_Inv _ _) S)) as (loca & ha & res & Ea & Ia & Aa & La & Lka & Ma & Fa & Rest).
    rewrite Ea in E. destruct res as [ra|e]; [|discriminate].
    destruct (spec_project (V := V) kc (texts (strings l))) eqn:Sp; try contradiction; [|discriminate].
    destruct Rest as (r' & Er & (Br & LRa) & Gok & ps & Fps & Ips & Walk0 & _); injection Er as <-.
    assert (Sa : Shape loca ha) by (split; apply Ia).
    destruct (add_local kc ha ra names (objects l)) as [h2 [[]|e]] eqn:E2; [|discriminate]. injection E as <- <-.
    destruct (add_local_ok kc vc (objects l) names loca ha ra h2 (Ok tt) Gn Sa LRa E2) as (loc2 & own & S2 & A2 & L2 & LR2 & O2 & K2 & M2 & Ga2 & R2 & N2 & T2 & Q2).
    exists loc2, ps, own. split; [exact S2|]; split; [exact LR2|]. split.
    { split; [intros q m H; apply Ga2 in H; apply (proj1 Ips q m H)|]. intros p Hp; destruct (proj2 Ips p Hp) as (q & m & Pq & H); exists q, m; split; [exact Pq|apply Ga2, H]. }
    split; [intros q m H; apply Ga2 in H; apply M2, Gok, H|]. split; [intros q; rewrite K2, Lka; apply Hl|]. split; [exact N|].
    assert (Pne : forall p, In p ps -> p <> []).
    { intros p Hp ->; destruct (proj2 Ips [] Hp) as (q & m & (s & Es) & (q1 & k & x & -> & _)). destruct q1; discriminate. }
    assert (Fps' : Forall2 (fun s p => parse kc (KStr s) = Some p) (strings l) ps).
    { clear - Fps. revert ps Fps; induction (strings l) as [|s ss IH]; intros ps H; inversion H; subst; constructor; auto. }
    split; [exact Fps'|]. split; [apply Forall_forall; exact Pne|]. split; [reflexivity|]; split; [apply Q2; reflexivity|]; split; [exact N2|]. split.
    - intros n Hn; destruct (T2 n Hn) as (Tw & Tg & Ti). split; [exact Ti|]; split; [exact Tg|].
      assert (X : forall p, In p ps -> ~ prefix [n] p).
      { intros p Hp (s & ->). destruct (proj2 Ips _ Hp) as (q & m & (s' & Es) & Gq). pose proof (gate_walk _ _ _ _ _ Gq) as Wq.
        destruct q as [|k q]; [destruct Gq as ([|] & ? & ? & ? & _); discriminate|]. cbn [app] in Es; injection Es as -> _.
        cbn [walk] in Wq, Tw. destruct (dget String.eqb (nchilds (hget ha ra)) k); discriminate. }
      intros p Hp; split; [|apply X, Hp]. intros (s & Es). destruct p as [|k [|? ?]]; [apply (Pne [] Hp); reflexivity| |discriminate].
      cbn [app] in Es; injection Es as <- _. apply (X [n] Hp); exists []; reflexivity.
    - intros q Hq. rewrite R2. rewrite (local_none (length (dhist ops)) loca ha ra ps Ia Br LRa Ips q Hq). destruct (owns own q); reflexivity.
  Qed.

  Definition given_path (ps : list path) (q : path) : Prop := exists p s, In p ps /\ q = p ++ s.
  (** The value that a decorator's tree holds at [q]: its own object, or what the global tree [m] holds below one of the paths [ps]. *)
  Definition holds (own : list (string * V)) (ps : list path) (m : amap V) (q : path) (v : V) : Prop :=
    (exists n, q = [n] /\ dget String.eqb own n = Some v) \/ (given_path ps q /\ dget path_eqb m q = Some v).

  (** A decorator created after any history [ops1] and used after any further history [ops2]. *)
  Theorem C30_handlers_meaning : forall ops1 l names h1 r ops2, ok_history ops1 -> names_ok names -> ok_history ops2 ->
    decorate (dhist ops1) (HSeq l) names = (h1, Ok r) ->
    exists own ps, map snd own = objects l /\ NoDup (dkeys own) /\
      Forall2 (fun s p => parse kc (KStr s) = Some p) (strings l) ps /\
      (forall n, In n (dkeys own) -> In (Ok n) names /\ ~ given_path ps [n]) /\
      let h2 := drun kc vc is_handler h1 ops2 in
      (* its own objects, for ever *)
      (forall n v, dget String.eqb own n = Some v -> tree_get kc h2 r (KStr n) = Ok (Some v)) /\
      (* below a path: what the global tree holds now *)
      (forall k p s, In p ps -> parse kc k = Some (p ++ s) -> kept kc vc (mhist ops1) p (tops ops2) -> tree_get kc h2 r k = tree_get kc h2 0 k) /\
      (* nothing else *)
      (forall k q, parse kc k = Some q -> ~ given_path ps q -> (forall n, q = [n] -> ~ In n (dkeys own)) -> tree_get kc h2 r k = Ok None) /\
      (* the handlers called for a record: each of these once *)
      ((forall p, In p ps -> kept kc vc (mhist ops1) p (tops ops2)) ->
       exists L : list (path * V), tree_iter h2 r = Ok (map snd L) /\ NoDup (map fst L) /\
         forall q v, In (q, v) L <-> holds own ps (mhist (ops1 ++ ops2)) q v).
  Proof.
    intros ops1 l names h1 r ops2 G1 Gn G2 E.
    destruct (decorate_ok ops1 l names h1 r G1 Gn E) as (loc1 & ps & own & S & LR & Ips & Gok & Hl & N & Fps & Pne & _ & Q & No & Ho & Lo).
    exists own, ps. split; [exact Q|]; split; [exact No|]; split; [exact Fps|]. split.
    { intros n Hn; destruct (Ho n Hn) as (Hi & _ & Hp); split; [exact Hi|]. intros (p & s & Hin & Es). apply (proj1 (Hp p Hin)); exists s; exact Es. }
    intros h2.
    destruct (local_view_d kc vc is_handler ops2 loc1 h1 (mhist ops1) r ps S G2 N Hl LR Ips) as (V1 & V2 & (loc2 & S2) & Hr).
    assert (Gmap : forall q, lookup h2 0 q = dget path_eqb (mhist (ops1 ++ ops2)) q).
    { intros q. assert (Ef : mhist (ops1 ++ ops2) = final (map_step kc vc) (mhist ops1) (tops ops2)).
      { unfold tops; rewrite flat_map_app; unfold final; apply fold_left_app. }
      rewrite Ef. destruct (drun_map kc vc is_handler ops2 loc1 h1 (mhist ops1) S G2 N Hl) as (_ & _ & _ & H); apply H. }
    assert (Out : forall q, ~ given_path ps q -> lookup h2 r q = owns own q).
    { intros q Hq. assert (Hq' : forall p, In p ps -> ~ prefix p q) by (intros p Hp (s & Es); apply Hq; exists p, s; auto).
      unfold h2; rewrite V1 by exact Hq'. apply Lo, Hq'. }
    assert (Inn : forall p s, In p ps -> kept kc vc (mhist ops1) p (tops ops2) -> lookup h2 r (p ++ s) = lookup h2 0 (p ++ s)).
    { intros p s Hp K; apply (V2 p (p ++ s) Hp); [exists s; reflexivity| |exact K]. intros g n Ga; left; apply Gok, Ga. }
    assert (OwnOut : forall n, In n (dkeys own) -> ~ given_path ps [n]).
    { intros n Hn (p & s & Hin & Es). apply (proj1 (proj2 (proj2 (Ho n Hn)) p Hin)); exists s; exact Es. }
    assert (InKeys : forall n v, dget String.eqb own n = Some v -> In n (dkeys own)).
    { intros n v D; apply (dget_In String.eqb String.eqb_spec) in D; apply (in_map fst) in D; exact D. }
    split.
    { intros n v D. pose proof (InKeys n v D) as Hn. rewrite tree_get_spec, (good_parse kc n (proj1 (proj2 (Ho n Hn)))).
      rewrite (Out [n] (OwnOut n Hn)). cbn [owns]; rewrite D; reflexivity. }
    split. { intros k p s Hp Hk K. rewrite !tree_get_spec, Hk, Inn by assumption; reflexivity. }
    split.
    { intros k q Hk Hq Hn. rewrite tree_get_spec, Hk, Out by exact Hq. destruct q as [|n [|? ?]]; cbn [owns]; try reflexivity.
      destruct (dget String.eqb own n) eqn:D; [|reflexivity]. elim (Hn n eq_refl). apply (InKeys _ _ D). }
    intros K. destruct (bfs_values_spec loc2 h2 r (proj1 S2) Hr) as (L & EL & ND & H & _).
    exists L; unfold tree_iter; rewrite EL; split; [reflexivity|]; split; [exact ND|].
    intros q v; rewrite H. unfold holds. split.
    - intros Lq.
      assert (Dec : given_path ps q \/ ~ given_path ps q).
      { clear - ps. induction ps as [|p ps IH]; [right; intros (p & s & [] & _)|].
        destruct IH as [(p' & s & Hp & ->)|IH]; [left; exists p', s; split; [right; exact Hp|reflexivity]|].
        destruct (list_eq_dec string_dec (firstn (length p) q) p) as [E|E].
        - left; exists p, (skipn (length p) q); split; [left; reflexivity|]. rewrite <- E at 1; symmetry; apply firstn_skipn.
        - right; intros (p' & s & [<-|Hp] & ->); [apply E; rewrite firstn_app, firstn_all, Nat.sub_diag, firstn_O, app_nil_r; reflexivity|].
          apply IH; exists p', s; auto. }
      destruct Dec as [(p & s & Hp & ->)|Nq].
      + right; split; [exists p, s; auto|]. rewrite <- Gmap, <- (Inn p s Hp (K p Hp)); exact Lq.
      + left. rewrite (Out q Nq) in Lq. destruct q as [|n [|? ?]]; cbn [owns] in Lq; try discriminate. exists n; auto.
    - intros [(n & -> & D)|((p & s & Hp & ->) & D)].
      + rewrite (Out [n] (OwnOut n (InKeys _ _ D))); exact D.
      + rewrite (Inn p s Hp (K p Hp)), Gmap; exact D.
  Qed.

  (** Enough names: the collection is accepted. *)
  Theorem C30_handlers_accepted : forall ops l ns tail, ok_history ops -> Forall (good_name kc) ns -> NoDup ns ->
    (forall v, In (AObj v) l -> is_handler v = true) ->
    (forall s, In (AStr s) l -> exists n p, parse kc (KStr s) = Some (n :: p)) ->
    length l <= length ns -> exists h1 r, decorate (dhist ops) (HSeq l) (map Ok ns ++ tail) = (h1, Ok r).
  Proof.
    intros ops l ns tail G Gn ND Hobj Hstr L. destruct (hist_map ops G) as (loc & S & N & Hl).
    assert (F : forallb is_handler (objects l) = true).
    { apply forallb_forall; intros v Hv; apply in_flat_map in Hv; destruct Hv as ([x|x] & Hx & Hv); [destruct Hv|]. destruct Hv as [<-|[]]; apply Hobj, Hx. }
    cbn [get_handlers]; rewrite classify_ok, F.
    destruct (project_ok kc (texts (strings l)) (length (dhist ops)) loc (dhist ops) (proj1 (Shape_Inv _ _) S)) as (loca & ha & res & Ea & Ia & Aa & La & Lka & Ma & Fa & Rest).
    assert (Sp : spec_project (V := V) kc (texts (strings l)) = RUnit).
    { clear - Hstr; induction l as [|[s|v] l IH]; [reflexivity| |]; cbn [strings flat_map app map spec_project] in *.
      - destruct (Hstr s) as (n & p & ->); [left; reflexivity|]. apply IH; intros x Hx; apply Hstr; right; exact Hx.
      - apply IH; intros x Hx; apply Hstr; right; exact Hx. }
    rewrite Sp in Rest. destruct Rest as (r & -> & (Br & LRa) & _). rewrite Ea.
    assert (Sa : Shape loca ha) by (split; apply Ia).
    destruct (firsts kc (texts (strings l)) ha r (project_top kc (texts (strings l)) loc (dhist ops) ha r S Ea)) as (used & Lu & Hu).
    pose proof (unused_length ha r ns used ND Hu) as Un. rewrite map_length in Lu.
    assert (Len : length (objects l) + length (strings l) = length l).
    { clear; induction l as [|[s|v] l IH]; [reflexivity| |]; cbn [strings objects flat_map app length] in *; unfold strings, objects in IH; lia. }
    destruct (add_local_total kc (objects l) ns tail loca ha r Gn ND Sa LRa) as (h2 & E2); [lia|].
    rewrite E2; exists h2, r; reflexivity.
  Qed.

  (** The names of polog itself (C45): up to 74 elements per epoch of names. *)
  Theorem C30_handlers_generated_names : forall ops l shuffled k tail, ok_history ops ->
    (forall e, Permutation (shuffled e) new_names_portion) -> (forall s, identifier s = true -> kc s = true) -> k <= 4999 ->
    (forall v, In (AObj v) l -> is_handler v = true) ->
    (forall s, In (AStr s) l -> exists n p, parse kc (KStr s) = Some (n :: p)) ->
    length l <= k * 74 ->
    names_ok (given shuffled k) /\ exists h1 r, decorate (dhist ops) (HSeq l) (given shuffled k ++ tail) = (h1, Ok r).
  Proof.
    intros ops l shuffled k tail G Fair Kc Hk Hobj Hstr L.
    destruct (C45_distinct shuffled Fair k Hk) as (ND & _ & Id).
    assert (Dots : forall s, identifier s = true -> no_dot s = true).
    { assert (C : forall f s, (forall c, f c = true -> Ascii.eqb c dot = false) -> all_chars f s = true -> no_dot s = true).
      { induction s as [|c s IH]; intros Hf H; [reflexivity|]. cbn [all_chars no_dot] in *. apply andb_prop in H; destruct H as [H1 H2].
        rewrite (Hf c H1), (IH Hf H2); reflexivity. }
      intros [|c s] H; [discriminate|]. cbn [identifier] in H. apply andb_prop in H; destruct H as [H1 H2].
      apply (C (fun c => letter c || numeral c)%bool (String c s)).
      - intros x Hx. destruct (Ascii.eqb_spec x dot) as [->|]; [discriminate Hx|reflexivity].
      - cbn [all_chars]. rewrite H1, H2; reflexivity. }
    assert (Ns : exists ns, given shuffled k = map Ok ns /\ Forall (good_name kc) ns).
    { clear ND L. induction (given shuffled k) as [|x xs IH]; [exists []; split; [reflexivity|constructor]|].
      destruct (Id x) as (s & -> & Hs); [left; reflexivity|]. destruct IH as (ns & -> & Gns); [intros y Hy; apply Id; right; exact Hy|].
      exists (s :: ns); split; [reflexivity|]. constructor; [|exact Gns]. split; [apply Kc, Hs|apply Dots, Hs]. }
    destruct Ns as (ns & E & Gns). split.
    - rewrite E, Forall_forall. intros x Hx; apply in_map_iff in Hx; destruct Hx as (s & <- & Hx). rewrite Forall_forall in Gns; apply Gns, Hx.
    - assert (Len : length ns = k * 74).
      { rewrite <- (map_length (@Ok string) ns), <- E. unfold given; rewrite map_length. apply C45_count, Fair. }
      rewrite E. apply C30_handlers_accepted; try assumption; [|lia].
      rewrite E in ND. apply (NoDup_map_inv _ _ ND).
  Qed.
End HandlersProps.

(** *** extra_fields *)
Section FieldsProps.
  Context {F : Type}.

  (** The pairs of all the dictionaries, in order. *)
  Definition pairs (l : list (felement F)) : list (pykey * fvalue F) := flat_map (fun x => match x with FDict d => d | _ => [] end) l.
  (** String keys, fields as values, no name twice. *)
  Definition fine (ps : list (pykey * fvalue F)) : Prop :=
    (forall k v, In (k, v) ps -> exists n f, k = KStr n /\ v = VField f) /\ NoDup (map fst ps).
  Definition is_dict (x : felement F) : Prop := exists d, x = FDict d.
  Definition valid (a : farg F) : Prop :=
    match a with
    | FNone => True
    | FOther => False
    | FOne d => fine d
    | FTuple l => (forall x, In x l -> is_dict x) /\ fine (pairs l)
    | FList l => (forall x, In x l -> is_dict x \/ x = FEllipsis) /\ fine (pairs l)
    end.
  Definition arg_pairs (a : farg F) : list (pykey * fvalue F) :=
    match a with FOne d => d | FTuple l | FList l => pairs l | _ => [] end.
  Definition asks_for_defaults (a : farg F) : Prop := match a with FNone => True | FList l => In FEllipsis l | _ => False end.

  Definition py (p : string * F) : pykey * fvalue F := (KStr (fst p), VField (snd p)).
  Lemma add_dict_spec : forall (d : udict F) pre,
    match add_dict F pre d with
    | Ok r => exists l, r = pre ++ l /\ map py l = d /\ (NoDup (dkeys pre) -> NoDup (dkeys r))
    | Err e => e = EValueError /\ ~ ((forall k v, In (k, v) d -> exists n f, k = KStr n /\ v = VField f) /\ NoDup (map fst d) /\ forall n, In (KStr n) (map fst d) -> ~ In n (dkeys pre))
    end.
  Proof.
    induction d as [|(k, v) d IH]; intros pre; cbn [add_dict].
    - exists []; rewrite app_nil_r; auto.
    - destruct k as [n|]; [|split; [reflexivity|intros (H & _); destruct (H KOther v) as (n & f & E & _); [left; reflexivity|discriminate]]].
      destruct v as [f|]; [|split; [reflexivity|intros (H & _); destruct (H (KStr n) VNot) as (n' & f & _ & E); [left; reflexivity|discriminate]]].
      destruct (dmem String.eqb pre n) eqn:D.
      + split; [reflexivity|]. intros (_ & _ & H). apply (H n); [left; reflexivity|]. apply (dmem_true String.eqb String.eqb_spec) in D; exact D.
      + assert (Nn : ~ In n (dkeys pre)) by (apply (dmem_false String.eqb String.eqb_spec); exact D).
        assert (Ds : dset String.eqb pre n f = pre ++ [(n, f)]).
        { clear - Nn. induction pre as [|(m, g) pre IHp]; [reflexivity|]. cbn [dset app dkeys map fst In] in *.
          destruct (String.eqb_spec n m) as [->|]; [elim Nn; auto|]. f_equal; apply IHp; intros X; apply Nn; right; exact X. }
        rewrite Ds. specialize (IH (pre ++ [(n, f)])). destruct (add_dict F (pre ++ [(n, f)]) d) as [r|e].
        * destruct IH as (l & -> & El & Hn). exists ((n, f) :: l); split; [rewrite <- app_assoc; reflexivity|]; split; [cbn [map]; rewrite El; reflexivity|].
          intros N; apply Hn. unfold dkeys; rewrite map_app; cbn [map fst]. apply NoDup_app_intro; [exact N|repeat constructor; intros []|].
          intros x Hx [<-|[]]; contradiction.
        * destruct IH as (-> & Hb); split; [reflexivity|]. intros (H1 & H2 & H3); apply Hb. cbn [map fst] in H2, H3; inversion H2 as [|y z Hn H2']; subst. split; [|split].
          -- intros k v Hin; apply H1; right; exact Hin.
          -- exact H2'.
          -- intros m Hm Hp. unfold dkeys in Hp; rewrite map_app in Hp; apply in_app_or in Hp; destruct Hp as [Hp|[<-|[]]].
             ++ apply (H3 m); [right; exact Hm|exact Hp].
             ++ cbn [fst] in Hm; contradiction.
  Qed.
  Lemma map_py_keys : forall l, map fst (map py l) = map (fun n => KStr n) (dkeys l).
  Proof. intros l; unfold dkeys; rewrite !map_map; reflexivity. Qed.
  Lemma NoDup_KStr : forall l, NoDup (map (fun n => KStr n) l) <-> NoDup l.
  Proof.
    split; [apply NoDup_map_inv|]. intros N; apply FinFun.Injective_map_NoDup; [intros x y E; congruence|exact N].
  Qed.

  Lemma add_dicts_spec : forall (l : list (felement F)) pre, NoDup (dkeys pre) ->
    match add_dicts F pre l with
    | Ok r => (forall x, In x l -> is_dict x) /\ exists o, r = pre ++ o /\ map py o = pairs l /\ NoDup (dkeys r)
    | Err e => (e = EAttributeError /\ ~ (forall x, In x l -> is_dict x)) \/
               (e = EValueError /\ ~ ((forall k v, In (k, v) (pairs l) -> exists n f, k = KStr n /\ v = VField f) /\ NoDup (map fst (pairs l)) /\ forall n, In (KStr n) (map fst (pairs l)) -> ~ In n (dkeys pre)))
    end.
  Proof.
    induction l as [|x l IH]; intros pre N; cbn [add_dicts].
    - split; [intros x []|]. exists []; rewrite app_nil_r; auto.
    - destruct x as [d| |]; try (left; split; [reflexivity|intros H; destruct (H _ (or_introl eq_refl)) as (d & E); discriminate]).
      pose proof (add_dict_spec d pre) as A. destruct (add_dict F pre d) as [r|e]; cbn [bindR].
      + destruct A as (o & -> & Eo & Hn). specialize (IH (pre ++ o) (Hn N)). destruct (add_dicts F (pre ++ o) l) as [r|e].
        * destruct IH as (Hd & o2 & -> & E2 & N2). split; [intros x [<-|Hx]; [exists d; reflexivity|apply Hd, Hx]|].
          exists (o ++ o2); split; [rewrite app_assoc; reflexivity|]; split; [|exact N2]. rewrite map_app, Eo, E2; reflexivity.
        * destruct IH as [(-> & H)|(-> & H)].
          -- left; split; [reflexivity|]. intros Hd; apply H; intros x Hx; apply Hd; right; exact Hx.
          -- right; split; [reflexivity|]. intros (H1 & H2 & H3); apply H. change (pairs (FDict d :: l)) with (d ++ pairs l) in *.
             rewrite map_app in H2, H3. split; [|split].
             ++ intros k v Hin; apply H1, in_or_app; right; exact Hin.
             ++ clear - H2. induction (map fst d) as [|y ys IHy]; [exact H2|inversion H2; auto].
             ++ intros n Hk0 Hp. unfold dkeys in Hp; rewrite map_app in Hp; apply in_app_or in Hp; destruct Hp as [Hp|Hp].
                ** apply (H3 n); [apply in_or_app; right; exact Hk0|exact Hp].
                ** assert (Hk : In (KStr n) (map fst d)) by (rewrite <- Eo, map_py_keys; apply in_map; exact Hp).
                   clear - H2 Hk0 Hk. induction (map fst d) as [|y ys IHy]; [destruct Hk|]. cbn [app] in H2; inversion H2 as [|z zs Hz Hr]; subst.
                   destruct Hk as [->|Hk]; [apply Hz, in_or_app; right; exact Hk0|apply IHy; assumption].
      + destruct A as (-> & H). right; split; [reflexivity|]. intros (H1 & H2 & H3); apply H. change (pairs (FDict d :: l)) with (d ++ pairs l) in *.
        rewrite map_app in H2, H3. split; [|split].
        * intros k v Hin; apply H1, in_or_app; left; exact Hin.
        * clear - H2. induction (map fst d) as [|y ys IHy]; [constructor|]. cbn [app] in H2; inversion H2; subst. constructor; [|auto].
          intros K; apply H1, in_or_app; left; exact K.
        * intros n Hn; apply H3, in_or_app; left; exact Hn.
  Qed.
  Lemma pairs_filter : forall l, pairs (filter (fun x => negb (is_ellipsis F x)) l) = pairs l.
  Proof. induction l as [|[d| |] l IH]; [reflexivity|exact (f_equal (app d) IH)|exact IH|exact IH]. Qed.
  Lemma dicts_filter : forall l : list (felement F), (forall x, In x (filter (fun x => negb (is_ellipsis F x)) l) -> is_dict x) <-> (forall x, In x l -> is_dict x \/ x = FEllipsis).
  Proof.
    intros l; split; intros H x Hx.
    - destruct x as [d| |]; [left; exists d; reflexivity|auto|]. left; apply H, filter_In; auto.
    - apply filter_In in Hx; destruct Hx as [Hx E]. destruct (H x Hx) as [D| ->]; [exact D|discriminate].
  Qed.
  Lemma fine_of : forall o, NoDup (dkeys o) -> fine (map py o).
  Proof.
    intros o N; split.
    - intros k v Hin; apply in_map_iff in Hin; destruct Hin as ((n, f) & E & _); injection E as <- <-; exists n, f; auto.
    - rewrite map_py_keys; apply NoDup_KStr, N.
  Qed.
  Lemma ellipsis_in : forall l, existsb (is_ellipsis F) l = true <-> In FEllipsis l.
  Proof.
    intros l; rewrite existsb_exists; split; [intros (x & Hx & E); destruct x; try discriminate; exact Hx|intros H; exists FEllipsis; auto].
  Qed.

  (** C30: what is accepted, and what the fields of the decorator then are. *)
  Theorem C30_fields_accepted : forall a : farg F, (exists c, snd (get_extra_fields a) = Ok c) <-> valid a.
  Proof.
    assert (Core : forall l : list (felement F), (exists c, add_dicts F [] l = Ok c) <-> (forall x, In x l -> is_dict x) /\ fine (pairs l)).
    { intros l. pose proof (add_dicts_spec l [] (NoDup_nil _)) as A. destruct (add_dicts F [] l) as [r|e].
      - destruct A as (D & o & -> & E & N). split; [intros _; split; [exact D|rewrite <- E; apply fine_of, N]|intros _; exists ([] ++ o); reflexivity].
      - split; [intros (c & E); discriminate|]. intros (D & Fi & Nd). destruct A as [(_ & H)|(_ & H)]; [elim H; exact D|]. elim H; split; [exact Fi|]; split; [exact Nd|intros n _ []]. }
    assert (Bind : forall l b, (exists c, bindR (add_dicts F [] l) (fun p => Ok (mkC p b)) = Ok c) <-> exists c, add_dicts F [] l = Ok c).
    { intros l b; destruct (add_dicts F [] l) as [r|e]; cbn [bindR]; split; intros (c & E); try discriminate; eexists; reflexivity. }
    intros [|d|l|l|]; cbn [get_extra_fields snd valid].
    - split; [auto|intros _; eexists; reflexivity].
    - rewrite Bind, Core. unfold pairs; cbn [flat_map]; rewrite app_nil_r. split; [tauto|]. intros H; split; [|exact H]. intros x [<-|[]]; exists d; reflexivity.
    - rewrite Bind, Core, pairs_filter, dicts_filter; reflexivity.
    - destruct (existsb (is_ellipsis F) l) eqn:E.
      + split; [intros (c & X); discriminate|]. intros (H & _). apply ellipsis_in in E. destruct (H _ E) as (d & X); discriminate.
      + rewrite Bind, Core; reflexivity.
    - split; [intros (c & X); discriminate|tauto].
  Qed.

  (** Refusals: ValueError, except for an element that is not a dictionary (or an Ellipsis in a tuple). *)
  Theorem C30_fields_refused : forall (a : farg F) e, snd (get_extra_fields a) = Err e ->
    e = EValueError \/ (e = EAttributeError /\ exists l x, (a = FList l \/ a = FTuple l) /\ In x l /\ ~ is_dict x).
  Proof.
    assert (Core : forall (l : list (felement F)) e b, bindR (add_dicts F [] l) (fun p => Ok (mkC p b)) = Err e ->
       e = EValueError \/ (e = EAttributeError /\ exists x, In x l /\ ~ is_dict x)).
    { intros l e b E. pose proof (add_dicts_spec l [] (NoDup_nil _)) as A. destruct (add_dicts F [] l) as [r|e']; [discriminate|]. cbn [bindR] in E; injection E as <-.
      destruct A as [(-> & H)|(-> & _)]; [right|left; reflexivity]. split; [reflexivity|].
      clear - H. induction l as [|x l IH]; [elim H; intros x []|]. destruct x as [d| |].
      - destruct IH as (x & Hx & N); [intros K; apply H; intros x [<-|Hx]; [exists d; reflexivity|apply K, Hx]|]. exists x; split; [right; exact Hx|exact N].
      - exists FEllipsis; split; [left; reflexivity|intros (d & X); discriminate].
      - exists FNot; split; [left; reflexivity|intros (d & X); discriminate]. }
    intros [|d|l|l|] e E; cbn [get_extra_fields snd] in E.
    - discriminate.
    - destruct (Core _ _ _ E) as [->|(_ & x & [<-|[]] & N)]; [auto|elim N; exists d; reflexivity].
    - destruct (Core _ _ _ E) as [->|(-> & x & Hx & N)]; [auto|right]. split; [reflexivity|]. apply filter_In in Hx; destruct Hx as [Hx _]. exists l, x; auto.
    - destruct (existsb (is_ellipsis F) l) eqn:X.
      + injection E as <-; right; split; [reflexivity|]. apply ellipsis_in in X. exists l, FEllipsis; split; [auto|]; split; [exact X|intros (d & K); discriminate].
      + destruct (Core _ _ _ E) as [->|(-> & x & Hx & N)]; [auto|right]. split; [reflexivity|]. exists l, x; auto.
    - injection E as <-; auto.
  Qed.

  (** The fields extracted for a record when the defaults are [d]: the decorator's own ones, in the order given, then, if they were asked
      for, those defaults whose names are not taken. *)
  Theorem C30_fields_meaning : forall (a : farg F) c, snd (get_extra_fields a) = Ok c ->
    (exists own, NoDup (dkeys own) /\ map py own = arg_pairs a /\
     forall d : list (string * F), NoDup (dkeys d) ->
      NoDup (dkeys (items c d)) /\
      (exists rest, items c d = own ++ rest /\ (forall n f, In (n, f) rest <-> asks_for_defaults a /\ In (n, f) d /\ ~ In n (dkeys own))) /\
      forall n, dget String.eqb (items c d) n <> None <-> In n (dkeys own) \/ (asks_for_defaults a /\ In n (dkeys d))).
  Proof.
    assert (Core : forall (l : list (felement F)) b c, bindR (add_dicts F [] l) (fun p => Ok (mkC p b)) = Ok c ->
      NoDup (dkeys (own c)) /\ map py (own c) = pairs l /\ with_defaults c = b).
    { intros l b c E. pose proof (add_dicts_spec l [] (NoDup_nil _)) as A. destruct (add_dicts F [] l) as [r|e]; [|discriminate]. cbn [bindR] in E; injection E as <-.
      destruct A as (_ & o & -> & Eo & N). cbn [own with_defaults app] in *. auto. }
    intros a c E.
    assert (K : NoDup (dkeys (own c)) /\ map py (own c) = arg_pairs a /\ (with_defaults c = true <-> asks_for_defaults a)).
    { destruct a as [|d|l|l|]; cbn [get_extra_fields snd arg_pairs asks_for_defaults] in *.
      - injection E as <-; cbn [own with_defaults dkeys map]; split; [constructor|]; split; [reflexivity|split; auto].
      - destruct (Core _ _ _ E) as (N & P & W). unfold pairs in P; cbn [flat_map] in P; rewrite app_nil_r in P. rewrite W; split; [exact N|]; split; [exact P|split; [discriminate|tauto]].
      - destruct (Core _ _ _ E) as (N & P & W). rewrite pairs_filter in P. rewrite W; split; [exact N|]; split; [exact P|apply ellipsis_in].
      - destruct (existsb (is_ellipsis F) l); [discriminate|]. destruct (Core _ _ _ E) as (N & P & W). rewrite W; split; [exact N|]; split; [exact P|split; [discriminate|tauto]].
      - discriminate. }
    destruct K as (N & P & W). exists (own c); split; [exact N|]; split; [exact P|]. intros d Nd. unfold items.
    set (rest := if with_defaults c then _ else _).
    assert (Hr : forall n f, In (n, f) rest <-> asks_for_defaults a /\ In (n, f) d /\ ~ In n (dkeys (own c))).
    { intros n f; unfold rest. destruct (with_defaults c) eqn:Ew.
      - rewrite filter_In; cbn [fst]; rewrite negb_true_iff, (dmem_false String.eqb String.eqb_spec). split; [intros H; split; [apply W; reflexivity|exact H]|tauto].
      - split; [intros []|intros (H & _); apply W in H; discriminate]. }
    assert (Nr : NoDup (dkeys rest)).
    { unfold rest; destruct (with_defaults c); [|constructor]. clear - Nd. induction d as [|(n, f) d IH]; [constructor|]. cbn [dkeys map fst] in Nd; inversion Nd as [|x y Hx Hy]; subst.
      cbn [filter fst]. destruct (negb (dmem String.eqb (own c) n)); [|apply IH, Hy]. cbn [dkeys map fst]; constructor; [|apply IH, Hy].
      intros K; apply Hx. apply in_map_iff in K; destruct K as ((m, g) & <- & K); apply filter_In in K; destruct K as [K _]. apply (in_map fst) in K; exact K. }
    split; [|split].
    - unfold dkeys; rewrite map_app; apply NoDup_app_intro; [exact N|exact Nr|]. intros n Ho Hn. apply in_map_iff in Hn; destruct Hn as ((m, f) & <- & Hn).
      apply Hr in Hn; destruct Hn as (_ & _ & X); exact (X Ho).
    - exists rest; split; [reflexivity|exact Hr].
    - intros n. destruct (in_dec string_dec n (dkeys (own c))) as [Ho|Ho].
      + split; [intros _; left; exact Ho|]. intros _ K. apply (dget_None String.eqb String.eqb_spec) in K. apply K. unfold dkeys; rewrite map_app; apply in_or_app; left; exact Ho.
      + split.
        * intros H; right. destruct (dget String.eqb (own c ++ rest) n) as [f|] eqn:D; [|elim H; reflexivity]. apply (dget_In String.eqb String.eqb_spec) in D.
          apply in_app_or in D; destruct D as [D|D]; [elim Ho; apply (in_map fst) in D; exact D|]. apply Hr in D; destruct D as (A & D & _). split; [exact A|apply (in_map fst) in D; exact D].
        * intros [H|(A & H)]; [contradiction|]. intros K. apply (dget_None String.eqb String.eqb_spec) in K. apply K. apply in_map_iff in H; destruct H as ((m, f) & <- & H).
          unfold dkeys; rewrite map_app; apply in_or_app; right. apply (in_map fst rest (m, f)). apply Hr; auto.
  Qed.

  (** The user's own object afterwards: a list has lost its Ellipses, anything else is as before. *)
  Theorem C30_argument_afterwards : forall a : farg F,
    fst (get_extra_fields a) = match a with FList l => FList (filter (fun x => match x with FEllipsis => false | _ => true end) l) | _ => a end.
  Proof.
    intros [|d|l|l|]; try reflexivity. cbn [get_extra_fields fst]; f_equal. apply filter_ext; intros [d| |]; reflexivity.
  Qed.
End FieldsProps.

(** So one decorator object log(extra_fields=[..., {}]) put on two functions does not mean the same for both: the defaults are
    extracted for the first and not for the second. *)
Theorem C30_same_argument_twice_refuted : ~ (forall (a : farg nat) c1 c2 d,
  snd (get_extra_fields a) = Ok c1 -> snd (get_extra_fields (fst (get_extra_fields a))) = Ok c2 -> items c1 d = items c2 d).
Proof.
  intros H. specialize (H (FList [FEllipsis; FDict []]) (mkC [] true) (mkC [] false) [("ip", 1)] eq_refl eq_refl). discriminate.
Qed.

(** *** Examples *)
Section Examples.
  Let id (s : string) : bool := identifier s.
  Let any (v : nat) : bool := true.
  Let small (v : nat) : bool := Nat.ltb v 100.
  (* global: a.b ↦ 1; the decorator gets 7, everything under "a", 8; then a.c ↦ 2 and d ↦ 3 are added. *)
  Let ops1 : list (dop (V := nat)) := [DTop (OSet (KStr "a.b") (Some 1))].
  Let arg : harg nat := HSeq [AObj 7; AStr "a"; AObj 8].
  Let names : list (Res string) := [Ok "a"; Ok "Rarity"; Ok "Applejack"].
  Let st := get_handlers id small (drun id any small tree_empty ops1) arg names.
  Let h2 := drun id any small (fst st) [DTop (OSet (KStr "a.c") (Some 2)); DTop (OSet (KStr "d") (Some 3)); DDec (HSeq [AStr "a"; AObj 9]) names].
  Example ex_decorate : exists r, snd st = Ok r /\ tree_iter h2 r = Ok [7; 8; 1; 2] /\ tree_iter h2 0 = Ok [3; 1; 2] /\
    tree_get id h2 r (KStr "Rarity") = Ok (Some 7) /\ tree_get id h2 r (KStr "a.c") = Ok (Some 2) /\ tree_get id h2 r (KStr "d") = Ok None.
  Proof. exists 3; vm_compute; repeat split. Qed.
  Example ex_refused : snd (get_handlers id small tree_empty (HSeq [AStr "."; AObj 100]) names) = Err EHandlerNotFound /\
    snd (get_handlers id small tree_empty (HSeq [AStr "x"; AStr "."; AStr "1"]) names) = Err EValueError /\
    snd (get_handlers id small tree_empty (HSeq [AStr "x"; AStr "1"; AStr "."]) names) = Err EKeyError /\
    snd (get_handlers id small tree_empty (HSeq [AObj 1; AObj 2; AObj 3; AObj 4]) names) = Err EIndexError.
  Proof. vm_compute; repeat split. Qed.
  Example ex_fields :
    snd (get_extra_fields (FList [FDict [(KStr "ip", VField 1)]; FEllipsis; FDict [(KStr "user", VField 2)]])) = Ok (mkC [("ip", 1); ("user", 2)] true) /\
    items (mkC [("ip", 1); ("user", 2)] true) [("host", 5); ("ip", 6)] = [("ip", 1); ("user", 2); ("host", 5)] /\
    snd (get_extra_fields (FTuple [FDict [(KStr "ip", VField 1)]; FDict [(KStr "ip", VField 2)]])) = Err EValueError /\
    snd (get_extra_fields (FTuple [FEllipsis; FDict [(KStr "ip", VField 1)]])) = Err EAttributeError /\
    snd (get_extra_fields (FOne [(KOther, VField 1)])) = Err EValueError.
  Proof. vm_compute; repeat split. Qed.
End Examples.

Print Assumptions C30_global_unchanged.
Print Assumptions C30_handlers_refused.
Print Assumptions C30_handlers_meaning.
Print Assumptions C30_handlers_accepted.
Print Assumptions C30_handlers_generated_names.
Print Assumptions C30_fields_accepted.
Print Assumptions C30_fields_refused.
Print Assumptions C30_fields_meaning.
Print Assumptions C30_argument_afterwards.
Print Assumptions C30_same_argument_twice_refuted.
