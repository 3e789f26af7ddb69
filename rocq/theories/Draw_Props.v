(** C71: theorems about the text of a tree. *)
From Verif Require Import Base Tree_Model Tree_Spec Tree_Heap Tree_Ops Tree_Project Tree_Proofs Tree_Props Draw_Model Draw_Spec Draw_Proofs.
Local Open Scope string_scope.
Local Open Scope list_scope.

Section Props.
  Context {V : Type}.
  Variable kc : string -> bool.
  Variable vc : V -> bool.
  (** str.isidentifier accepts no empty name. *)
  Hypothesis kc_empty : kc "" = false.
  Notation hist := (final (tree_step kc vc) (tree_empty (V := V))).
  Notation mhist := (final (map_step kc vc) (map_empty (V := V))).

  Lemma path_has_key : forall p, p <> [] -> forallb (good kc) p = true -> parse kc (KStr (join_dots p)) = Some p.
  Proof.
    intros p N G; apply parse_denotes; right; destruct (good_split kc kc_empty p G) as [D E].
    split; [|split; [exact N|split; [reflexivity|split; [exact D|]]]].
    - intros X; pose proof (split_join p N D) as Y; rewrite X in Y; rewrite <- Y in E; apply E; left; reflexivity.
    - clear - G; induction p as [|a p IH]; [reflexivity|]; cbn [forallb] in *; apply andb_prop in G; destruct G as [G1 G2].
      unfold good in G1; apply andb_prop in G1; destruct G1 as [_ G1]; rewrite G1; apply IH, G2.
  Qed.

  Lemma draws_any : forall h (m : amap V) r, Rel h m -> J kc h -> fn kc h r [] ->
    (tree_len h r = Ok 0 -> tree_str h r = Ok empty_text) /\
    (forall n, tree_len h r = Ok (S n) -> exists text, tree_str h r = Ok text /\ draws kc h r text).
  Proof.
    intros h m r (b & loc & (W & _) & _) Jh F.
    destruct (tree_str_spec kc kc_empty loc h r W Jh F) as [A B].
    destruct (tree_len_spec loc h r W (fn_alloc _ _ _ _ F)) as (n & En & Hn); split.
    - intros E; apply A, Hn; congruence.
    - intros n' E; destruct B as (l & T & Nd & Hin & P & G); [intros Hb; apply Hn in Hb; congruence|].
      eexists; split; [exact T|]; exists l; split; [reflexivity|].
      inversion Nd as [|x l0 Hni Nd']; subst; split; [exact Nd'|]; split; [exact P|]; split.
      + intros p Hp; assert (p <> []) as Np by (intros ->; contradiction); split; [exact Np|].
        exists (KStr (join_dots p)); apply path_has_key; [exact Np|].
        rewrite forallb_forall in G; apply G, Hp.
      + intros k p Hk Np; rewrite tree_contains_spec, Hk; specialize (Hin p); cbn [In] in Hin; split.
        * intros Hp; destruct (walk h r p); [reflexivity|]; exfalso; apply (proj1 Hin); auto.
        * intros E1; destruct (walk h r p); [|discriminate]; destruct (proj2 Hin) as [X|X]; [discriminate|congruence|exact X].
  Qed.

  Lemma hist_J : forall ops, J kc (hist ops) /\ fn kc (hist ops) 0 [].
  Proof.
    intros ops; destruct (final_J kc vc ops tree_empty (empty_J kc) (empty_fn kc)) as [A B].
    split; [exact A|apply (fn_stable _ _ _ _ _ B), empty_fn].
  Qed.

  (** Nothing stored: the text says so, whatever empty nodes are left. *)
  Theorem C71_empty : forall ops : list (top V), mhist ops = [] -> tree_str (hist ops) 0 = Ok "<NamedTree empty object>".
  Proof.
    intros ops E; destruct (hist_J ops) as [Jh F]; destruct (history_refines kc vc ops) as [_ R].
    destruct (draws_any _ _ 0 R Jh F) as [A _]; apply A.
    destruct (iter_spec vc _ _ R) as (l & _ & E1 & _); rewrite E1, E; reflexivity.
  Qed.

  (** Something stored: a line for each node, indented by its depth, parents first. *)
  Theorem C71_text : forall ops : list (top V), mhist ops <> [] ->
    exists text, tree_str (hist ops) 0 = Ok text /\ draws kc (hist ops) 0 text.
  Proof.
    intros ops E; destruct (hist_J ops) as [Jh F]; destruct (history_refines kc vc ops) as [_ R].
    destruct (draws_any _ _ 0 R Jh F) as [_ A].
    destruct (iter_spec vc _ _ R) as (l & _ & E1 & _); destruct (mhist ops) as [|x r]; [congruence|].
    apply (A (length r) E1).
  Qed.

  (** Without projections the lines are the stored keys and what leads to them. *)
  Theorem C71_lines : forall ops : list (top V), mhist ops <> [] -> forallb no_projection ops = true ->
    exists l : list path,
      tree_str (hist ops) 0 = Ok (first_line ++ String.concat (String nl "") (map line ([] :: l)) ++ ">")%string /\
      NoDup l /\ preorder [] l /\ forall p, In p l <-> p <> [] /\ leads_to_value (mhist ops) p.
  Proof.
    intros ops E No; destruct (C71_text ops E) as (text & T & l & -> & Nd & P & K & C).
    exists l; split; [exact T|]; split; [exact Nd|]; split; [exact P|]; intros p; split.
    - intros Hp; destruct (K p Hp) as (Np & k & Hk); split; [exact Np|].
      apply (C03_membership kc vc ops k p No Hk Np), (C k p Hk Np), Hp.
    - intros (Np & L).
      assert (exists k, parse kc k = Some p) as (k & Hk).
      { destruct L as (q & Hq).
        destruct (hist_J ops) as [Jh F]; destruct (history_refines kc vc ops) as [_ (b & loc & _ & _ & Hl)].
        rewrite <- Hl, lookup_app in Hq; destruct (walk (hist ops) 0 p) as [n|] eqn:Ew; [|congruence].
        exists (KStr (join_dots p)); apply path_has_key; [exact Np|].
        exact (fn_good kc (hist ops) n p (walk_fn kc (hist ops) p 0 n [] Jh F Ew)). }
      apply (C k p Hk Np), (C03_membership kc vc ops k p No Hk Np), L.
  Qed.

  (** A local tree is drawn the same way, at any later time: its full names are those of the paths in it. *)
  Theorem C71_local : forall (ops1 ops2 : list (top V)) ks h1 r, project kc (hist ops1) 0 ks = (h1, Ok r) ->
    let h2 := final (tree_step kc vc) h1 ops2 in
    (tree_len h2 r = Ok 0 /\ tree_str h2 r = Ok "<NamedTree empty object>") \/
    (exists n text, tree_len h2 r = Ok (S n) /\ tree_str h2 r = Ok text /\ draws kc h2 r text).
  Proof.
    intros ops1 ops2 ks h1 r Ep h2.
    destruct (hist_J ops1) as [Jh F]; destruct (history_refines kc vc ops1) as [_ R].
    destruct (project_J kc ks (hist ops1) 0 Jh F) as (J1 & S1 & R1).
    destruct (step_refines kc vc _ _ (OProject ks) R) as [R2 _]; cbn [tree_step map_step fst] in R2.
    rewrite Ep in J1, S1, R1, R2; cbn [fst snd] in J1, S1, R1, R2.
    destruct (final_J kc vc ops2 h1 J1 (fn_stable _ _ _ _ _ S1 F)) as [J2 S2].
    pose proof (final_Rel kc vc ops2 h1 _ R2) as R3.
    pose proof (fn_stable _ _ _ _ _ S2 (R1 r eq_refl)) as Fr.
    destruct (draws_any h2 _ r R3 J2 Fr) as [A B].
    destruct R3 as (b & loc & (W & _) & _); destruct (tree_len_spec loc h2 r W (fn_alloc _ _ _ _ Fr)) as ([|n] & En & _).
    - left; split; [exact En|apply A, En].
    - right; destruct (B n En) as (text & T & D); exists n, text; auto.
  Qed.

  (** The text can be read back: if no name holds a line break, trees with the same text have the same nodes. *)
  Theorem C71_readable : forall (h1 h2 : heap V) r1 r2 text, (forall k, kc k = true -> count_char nl k = 0) ->
    draws kc h1 r1 text -> draws kc h2 r2 text ->
    forall k, tree_contains kc h1 r1 k = tree_contains kc h2 r2 k.
  Proof.
    intros h1 h2 r1 r2 text Hnl (l1 & T1 & _ & P1 & K1 & C1) (l2 & T2 & _ & P2 & K2 & C2) k.
    assert (forall l : list path, (forall p, In p l -> p <> [] /\ exists k, parse kc k = Some p) -> Forall (Forall (fun k => count_char nl k = 0)) l) as NL.
    { intros l K; apply Forall_forall; intros p Hp; destruct (K p Hp) as (Np & k' & Hk); apply Forall_forall; intros x Hx; apply Hnl.
      apply parse_denotes in Hk; destruct k' as [s|]; [|destruct Hk]; destruct Hk as [(_ & ->)|(_ & _ & _ & _ & H)]; [destruct Hx|].
      rewrite forallb_forall in H; apply H, Hx. }
    assert (l1 = l2) as <- by (apply text_inj; [apply NL, K1|apply NL, K2|exact P1|exact P2|congruence]).
    rewrite !tree_contains_spec; destruct (parse kc k) as [p|] eqn:Hk; [|reflexivity].
    destruct p as [|x p]; [reflexivity|].
    specialize (C1 k (x :: p) Hk ltac:(discriminate)); specialize (C2 k (x :: p) Hk ltac:(discriminate)).
    rewrite tree_contains_spec, Hk in C1, C2.
    destruct (walk h1 r1 (x :: p)), (walk h2 r2 (x :: p)); try reflexivity; exfalso.
    - assert (Ok false = Ok true) as Q by (apply C2, C1; reflexivity); discriminate.
    - assert (Ok false = Ok true) as Q by (apply C1, C2; reflexivity); discriminate.
  Qed.

  (** Two histories: the same text, the same stored keys and ways to them. *)
  Theorem C71_same_text : forall ops1 ops2 : list (top V), (forall k, kc k = true -> count_char nl k = 0) ->
    forallb no_projection ops1 = true -> forallb no_projection ops2 = true ->
    tree_str (hist ops1) 0 = tree_str (hist ops2) 0 -> forall p, p <> [] -> (leads_to_value (mhist ops1) p <-> leads_to_value (mhist ops2) p).
  Proof.
    intros ops1 ops2 Hnl N1 N2 E p Np.
    assert (forall ops, mhist ops = [] -> forall p, ~ leads_to_value (mhist ops) p) as Em.
    { intros ops X q (s & Hs); rewrite X in Hs; apply Hs; reflexivity. }
    assert (forall ops : list (top V), {mhist ops = []} + {mhist ops <> []}) as Dec.
    { intros ops; destruct (mhist ops); [left; reflexivity|right; discriminate]. }
    destruct (Dec ops1) as [E1|E1], (Dec ops2) as [E2|E2].
    - split; intros H; exfalso; [apply (Em ops1 E1 p H)|apply (Em ops2 E2 p H)].
    - exfalso; rewrite (C71_empty ops1 E1) in E; destruct (C71_lines ops2 E2 N2) as (l & T & _); rewrite T in E; discriminate E.
    - exfalso; rewrite (C71_empty ops2 E2) in E; destruct (C71_lines ops1 E1 N1) as (l & T & _); rewrite T in E; discriminate E.
    - destruct (C71_lines ops1 E1 N1) as (l1 & T1 & _ & P1 & K1); destruct (C71_lines ops2 E2 N2) as (l2 & T2 & _ & P2 & K2).
      assert (l1 = l2) as <-.
      { assert (forall ops l, (forall p, In p l <-> p <> [] /\ leads_to_value (mhist ops) p) -> Forall (Forall (fun k => count_char nl k = 0)) l) as NL.
        { intros ops l K; apply Forall_forall; intros q Hq; apply K in Hq; destruct Hq as (_ & s & Hs).
          destruct (hist_J ops) as [Jh F]; destruct (history_refines kc vc ops) as [_ (b & loc & _ & _ & Hl)].
          rewrite <- Hl, lookup_app in Hs; destruct (walk (hist ops) 0 q) as [n|] eqn:Ew; [|congruence].
          pose proof (fn_good kc (hist ops) n q (walk_fn kc (hist ops) q 0 n [] Jh F Ew)) as G; rewrite forallb_forall in G.
          apply Forall_forall; intros x Hx; apply Hnl; specialize (G x Hx); unfold good in G; apply andb_prop in G; apply G. }
        apply text_inj; [apply (NL ops1), K1|apply (NL ops2), K2|exact P1|exact P2|congruence]. }
      split; intros H; [apply K2, K1; auto|apply K1, K2; auto].
  Qed.
End Props.

(** *** Concrete cases *)
Definition drawn (ops : list (top nat)) : Res string := tree_str (st ops) 0.
Example C71_case : drawn [OSet (KStr "a.b") (Some 1); OSet (KStr "c") (Some 2); OSet (KStr "a.d") (Some 3)] =
  Ok (first_line ++ line [] ++ String nl "" ++ line ["a"] ++ String nl "" ++ line ["a"; "b"] ++ String nl "" ++ line ["a"; "d"] ++ String nl "" ++ line ["c"] ++ ">")%string
  /\ line ["a"; "d"] = String tab (String tab (String "|" (String esc "[4md" ++ String esc "[0m")))%string.
Proof. vm_compute; auto. Qed.
Example C71_case_empty : drawn [OProject [KStr "a"]; OSet (KStr "b") (Some 1); ODel (KStr "b")] = Ok "<NamedTree empty object>".
Proof. vm_compute; reflexivity. Qed.
Example C71_case_local : let (h, r) := project any_key (st [OSet (KStr "a.b") (Some 1); OSet (KStr "c") (Some 2)]) 0 [KStr "a.b"] in
  match r with Ok r => tree_str h r | Err e => Err e end =
  Ok (first_line ++ line [] ++ String nl "" ++ line ["a"] ++ String nl "" ++ line ["a"; "b"] ++ ">")%string.
Proof. vm_compute; reflexivity. Qed.
Example C71_case_key : any_key "" = false.
Proof. reflexivity. Qed.

(** The text does not tell which of the drawn keys have values, nor the values. *)
Theorem C71_values_refuted : exists ops1 ops2 k, drawn ops1 = drawn ops2 /\ drawn ops1 <> Ok empty_text /\
  tree_get any_key (st ops1) 0 k = Ok None /\ tree_get any_key (st ops2) 0 k = Ok (Some 5).
Proof.
  exists [OSet (KStr "a.b") (Some 1)], [OSet (KStr "a") (Some 5); OSet (KStr "a.b") (Some 2)], (KStr "a").
  vm_compute; repeat split; discriminate.
Qed.

(** Trees that answer every read the same may have different texts. *)
Theorem C71_determined_refuted : exists ops1 ops2, drawn ops1 <> drawn ops2 /\
  final (map_step any_key any_val) map_empty ops1 = final (map_step any_key any_val) map_empty ops2.
Proof.
  exists [OSet (KStr "a") (Some 1)], [OProject [KStr "b"]; OSet (KStr "a") (Some 1)].
  split; [vm_compute; discriminate|reflexivity].
Qed.

Print Assumptions C71_empty.
Print Assumptions C71_text.
Print Assumptions C71_lines.
Print Assumptions C71_local.
Print Assumptions C71_readable.
Print Assumptions C71_same_text.
Print Assumptions C71_values_refuted.
Print Assumptions C71_determined_refuted.
