(** C77: the times of records. *)
From Coq Require Import Relations Lia.
From Verif Require Import Base Handle_Model Handle_Props Supp_Model Call_Model Call_Spec Call_Proofs Call_Inv Call_Struct Call_Props Block_Props Clock_Model Clock_Spec Clock_Proofs.
Local Open Scope string_scope.
Local Open Scope list_scope.

Section Props.
  Variable W : cenv.
  Variable clock : nat -> Z.
  Variable stamp : Z -> val.
  Variable span : Z -> val.

  Definition not_none_values (f : Z -> val) : Prop := forall z, f z <> VNone.

  (** C77: in any program in which the user does not give the times, every record of a call and of a with-block tells the
      reading of the clock at which its body began and that at which it ended, a manual record tells its one moment.  Of two
      records the one written first has ended before the other began, or lies inside of it. *)
  Theorem C77_readings : forall q c C o, not_none_values stamp -> not_none_values span -> hier_ok (hi W) ->
    supps (exceptions_only (hi W) (exc W)) q -> leaves_times q -> execc W clock stamp span q (startc c) = (C, o) ->
    exists l, Forall2 (tells_readings clock stamp span) (records (tr (cs C))) l /\ pairwise before_or_inside_readings l /\
      forall ij, In ij l -> snd ij < tick C.
  Proof.
    intros q c C o Hs Hp Hh Hg Hl H.
    assert (Mono : supps (good W) q).
    { clear - Hh Hg; induction q as [o|p a kw body IHb k IHk|full body IHb k IHk|h body IHb k IHk|args kw k IHk|f k IHk|args kw k IHk
                      |i k IHk|i cs k IHk|i args kw k IHk|i body IHb k IHk|kw supp body IHb k IHk]; cbn [supps] in *; auto.
      1-4: destruct Hg as [A B]; split; auto.
      destruct Hg as [A [B C]]; split; [|split; auto].
      intros cc all l vs ->; apply (suppress_good (hi W) (exc W) cc all l vs Hh A). }
    assert (K0 : K stamp (startc c)).
    { split; [|split; [intros m Z; discriminate Z|discriminate]]; intros i; unfold get_fin; cbn [fins cs startc start]; destruct i; repeat split; cbn; auto; discriminate. }
    destruct (exec_clock W clock stamp span Hs Hp q Mono Hl _ _ _ H K0) as [_ (_ & _ & _ & new & T & l & F & P & Wi)].
    cbn in T; rewrite T; exists l; split; [exact F|split; [exact P|]].
    intros ij Hi; rewrite Forall_forall in Wi; apply (Wi ij Hi).
  Qed.

  (** C77: with a clock that is never set back: the time of work is never negative, records are written in the order in
      which what they tell about ended, and a record written before another is about something earlier or inside of it. *)
  Theorem C77_times : forall q c C o, not_none_values stamp -> not_none_values span -> never_back clock -> hier_ok (hi W) ->
    supps (exceptions_only (hi W) (exc W)) q -> leaves_times q -> execc W clock stamp span q (startc c) = (C, o) ->
    exists l, Forall2 (fun r ab => tells stamp span r (fst ab) (snd ab)) (records (tr (cs C))) l /\
      (forall ab, In ab l -> (fst ab <= snd ab)%Z) /\ pairwise before_or_inside l /\ pairwise (fun x y => (snd x <= snd y)%Z) l.
  Proof.
    intros q c C o Hs Hp Nb Hh Hg Hl H.
    destruct (C77_readings q c C o Hs Hp Hh Hg Hl H) as (l & F & P & _).
    assert (Mo : forall d n, (clock n <= clock (d + n))%Z) by (induction d as [|d IH]; intros n; [cbn; lia|cbn; specialize (IH n); specialize (Nb (d + n)); lia]).
    assert (Mn : forall i j, i <= j -> (clock i <= clock j)%Z) by (intros i j L; specialize (Mo (j - i) i); replace (j - i + i) with j in Mo by lia; exact Mo).
    exists (map (fun ij => (clock (fst ij), clock (snd ij))) l); split; [|split; [|split]].
    - clear - F; induction F as [|r ij rs l [T _] F IH]; cbn; constructor; [exact T|exact IH].
    - intros ab Hi; apply in_map_iff in Hi; destruct Hi as (ij & <- & Hi); cbn; apply Mn.
      clear - F Hi; induction F as [|r x rs l [_ T] F IH]; [destruct Hi|]; destruct Hi as [->|Hi]; [|exact (IH Hi)].
      destruct (fst r); lia.
    - clear - P Mn; induction l as [|x r IH]; [exact Logic.I|]; destruct P as [P1 P2]; cbn; split; [|exact (IH P2)].
      intros y Hy; apply in_map_iff in Hy; destruct Hy as (ij & <- & Hy); cbn; destruct (P1 ij Hy) as [L|[L1 L2]]; unfold before_or_inside; cbn.
      + left; apply Mn; lia.
      + right; split; apply Mn; lia.
    - clear - P F Mn; revert P; induction F as [|r x rs l [_ T] F IH]; intros P; [exact Logic.I|]; destruct P as [P1 P2]; cbn; split; [|exact (IH P2)].
      intros y Hy; apply in_map_iff in Hy; destruct Hy as (ij & <- & Hy); cbn; apply Mn.
      assert (E : fst ij <= snd ij).
      { clear - F Hy; induction F as [|r z rs l [_ T] F IH]; [destruct Hy|]; destruct Hy as [->|Hy]; [|exact (IH Hy)]; destruct (fst r); lia. }
      destruct (P1 ij Hy) as [L|[_ L]]; lia.
  Qed.

  (** C77: the record of one call: the clock is read right before the function runs and right after it. *)
  Theorem C77_call : forall p a kw body k C C1 o,
    execc W clock stamp span body (mkCst (begun (cs C)) (S (tick C)) (begun_at C)) = (C1, o) -> (forall m, msg (cs C1) = Some m -> no_times m) ->
    exists C2 o' evs, execc W clock stamp span (Logged p a kw body k) C = execc W clock stamp span (k o') C2 /\
      tr (cs C2) = tr (cs C1) ++ evs /\ tick C2 = S (tick C1) /\
      forall kd f, In (kd, f) (records evs) ->
        fget f "time" = Some (stamp (clock (tick C))) /\ fget f "time_of_work" = Some (span (clock (tick C1) - clock (tick C))%Z).
  Proof.
    intros p a kw body k C C1 o E Nm; cbn [execc]; unfold begun in E; cbv zeta; rewrite E.
    destruct (after (at_ W stamp span (clock (tick C)) (clock (tick C)) (clock (tick C1))) p a kw (ncall (cs C)) o (cs C1)) as [s2 o2] eqn:A.
    destruct (after_tells W stamp span _ _ _ _ _ _ _ _ _ _ _ A Nm) as (_ & evs & T & Q).
    eexists _, o2, (evs ++ [EEnd (ncall (cs C)) o2]); split; [reflexivity|]; cbn [cs tr emit tick]; split; [rewrite T, app_assoc; reflexivity|split; [reflexivity|]].
    intros kd f Hf; rewrite records_app, app_nil_r in Hf; destruct Q as [Q|(k0 & g & _ & Q & Q1 & Q2)]; rewrite Q in Hf; [destruct Hf|].
    destruct Hf as [Hf|[]]; injection Hf as -> ->; split; assumption.
  Qed.

  (** C77: Call_Model is this model with a clock that stands still. *)
  Theorem C77_standing_clock : forall q c, stamp 0%Z = now (ce W) -> span 0%Z = dur W -> (forall n, clock n = 0%Z) ->
    let '(C, o) := execc W clock stamp span q (startc c) in exec W q (start c) = (cs C, o).
  Proof.
    intros q c Es Ed Cz.
    assert (Ea : at_ W stamp span 0 0 0 = W) by (unfold at_; cbn [Z.sub Z.opp Z.add]; rewrite Es, Ed; destruct W as [[] ? ? ? ? ? ?]; reflexivity).
    assert (G : forall q C, (forall j, begun_at C j = 0%Z) -> let '(C', o) := execc W clock stamp span q C in exec W q (cs C) = (cs C', o) /\ forall j, begun_at C' j = 0%Z).
    { assert (En : forall C i, (forall j, begun_at C j = 0%Z) -> match enter_at W clock stamp span C i with
                | Some C' => enter W (cs C) i = Some (cs C') /\ forall j, begun_at C' j = 0%Z | None => enter W (cs C) i = None end).
      { intros C i B; unfold enter_at; rewrite Cz, Ea; destruct (enter W (cs C) i); [|reflexivity]; split; [reflexivity|]; intros j; cbn; destruct (Nat.eqb j i); [reflexivity|apply B]. }
      assert (Lv : forall C i o, (forall j, begun_at C j = 0%Z) -> let '(C', o') := leave_at W clock stamp span C i o in leave W (cs C) i o = (cs C', o') /\ forall j, begun_at C' j = 0%Z).
      { intros C i o B; unfold leave_at; rewrite !Cz, B, Ea; destruct (leave W (cs C) i o) as [s o']; split; [reflexivity|exact B]. }
      clear q; induction q as [o|p a kw body IHb k IHk|full body IHb k IHk|h body IHb k IHk|args kw k IHk|f k IHk|args kw k IHk
                    |i k IHk|i vs k IHk|i args kw k IHk|i body IHb k IHk|kw supp body IHb k IHk]; intros C B; cbn [execc exec].
      - split; [reflexivity|exact B].
      - match goal with |- context [execc W clock stamp span body ?X] => pose proof (IHb X B) as H; destruct (execc W clock stamp span body X) as [C1 o1] end.
        destruct H as [H B1]; cbn [cs] in H; rewrite H, !Cz, Ea; destruct (after W p a kw (ncall (cs C)) o1 (cs C1)) as [s2 o2].
        apply (IHk o2 (mkCst _ _ _)); exact B1.
      - match goal with |- context [execc W clock stamp span body ?X] => pose proof (IHb X B) as H; destruct (execc W clock stamp span body X) as [C1 o1] end.
        destruct H as [H B1]; cbn [cs with_st] in H; rewrite H; apply (IHk o1 (mkCst _ _ _)); exact B1.
      - pose proof (IHb C B) as H; destruct (execc W clock stamp span body C) as [C1 o1]; destruct H as [H B1]; rewrite H; apply IHk; exact B1.
      - destruct (message_fields (cf (cs C)) (ce W) args kw) as [[f|]|x]; [apply (IHk _ (mkCst _ _ _)); exact B|apply IHk; exact B|apply (IHk _ (mkCst _ _ _)); exact B].
      - apply (IHk (mkCst _ _ _)); exact B.
      - destruct (new_fin (cs C) args kw) as [[s1 i]|x]; apply (IHk _ (mkCst _ _ _)); exact B.
      - destruct (f_used (get_fin (cs C) i)); [apply IHk; exact B|]; cbv zeta; rewrite !Cz, Ea; apply (IHk (mkCst _ _ _)); exact B.
      - destruct (add_supp W (cs C) i vs) as [s1 r]; destruct (result W s1 r) as [s2 o]; apply (IHk _ (mkCst _ _ _)); exact B.
      - destruct (edit (cs C) i args kw) as [s1 r]; destruct (result W s1 r) as [s2 o]; apply (IHk _ (mkCst _ _ _)); exact B.
      - pose proof (En C i B) as H; destruct (enter_at W clock stamp span C i) as [C1|].
        + destruct H as [H B1]; rewrite H; pose proof (IHb C1 B1) as H2; destruct (execc W clock stamp span body C1) as [C2 o1]; destruct H2 as [H2 B2]; rewrite H2.
          pose proof (Lv C2 i o1 B2) as H3; destruct (leave_at W clock stamp span C2 i o1) as [C3 o2]; destruct H3 as [H3 B3]; rewrite H3; apply IHk; exact B3.
        + rewrite H; destruct (raise_ W (cs C) EIncorrectUse) as [s1 o]; apply (IHk _ (mkCst _ _ _)); exact B.
      - cbv zeta; set (i := length (fins (cs C))); set (s1 := push _ i).
        pose proof (En (with_st C s1) i B) as H; destruct (enter_at W clock stamp span (with_st C s1) i) as [C2|]; cbn [cs with_st] in H.
        2: { rewrite H; destruct (raise_ W s1 EIncorrectUse) as [s2 o]; apply (IHk _ (mkCst _ _ _)); exact B. }
        destruct H as [H B2]; rewrite H; destruct (partial_enter W (cs C2) i kw supp) as [s4 [u|z]].
        2: { destruct (raise_ W s4 z) as [s5 o]; apply (IHk _ (mkCst _ _ _)); exact B2. }
        pose proof (IHb i (with_st C2 s4) B2) as H5; destruct (execc W clock stamp span (body i) (with_st C2 s4)) as [C5 o]; destruct H5 as [H5 B5]; cbn [cs with_st] in H5; rewrite H5.
        destruct (pop (cs C5)) as [[s6 j]|].
        2: { destruct (raise_ W (cs C5) EIncorrectUse) as [s6 o']; apply (IHk _ (mkCst _ _ _)); exact B5. }
        pose proof (Lv (with_st C5 s6) j o B5) as H7; destruct (leave_at W clock stamp span (with_st C5 s6) j o) as [C7 o']; destruct H7 as [H7 B7]; cbn [cs with_st] in H7; rewrite H7.
        apply IHk; exact B7. }
    pose proof (G q (startc c) (fun _ => eq_refl)) as H; destruct (execc W clock stamp span q (startc c)) as [C o]; apply H.
  Qed.
End Props.

(** * Examples and refutations *)

Definition stamp0 (z : Z) : val := VInt z.
Definition clock0 (n : nat) : Z := Z.of_nat (n * n).
Definition times (t : list ev) : list (kind * option val * option val) := map (fun r => (fst r, fget (snd r) "time", fget (snd r) "time_of_work")) (records t).
Definition run0 (clock : nat -> Z) (q : prog) := times (tr (cs (fst (execc W0 clock stamp0 stamp0 q (startc c0))))).

(** A call with a block, a manual record and another call inside. *)
Example ex_clock : run0 clock0 (Logged p0 [] [] (WithR [] None (fun _ => New [VStr "m"] [] (fun r => match r with inl i => Drop i (Done (ORet VNone)) | _ => Done (ORet VNone) end))
     (fun _ => leaf p0 (Done (ORet VNone)))) Done)
  = [(KManual, Some (VInt 4), None); (KBlock 0, Some (VInt 1), Some (VInt 8)); (KNorm 1, Some (VInt 25), Some (VInt 11)); (KNorm 0, Some (VInt 0), Some (VInt 49))].
Proof. vm_compute; reflexivity. Qed.

(** C77: "the time of work is never negative" fails if the clock is set back: time.time() is not a monotonic clock. *)
Theorem C77_never_negative_refuted : exists clock q, leaves_times q /\ run0 clock q = [(KNorm 0, Some (VInt 5), Some (VInt (-3)))].
Proof. exists (fun n : nat => match n with O => 5%Z | _ => 2%Z end), (leaf p0 (Done (ORet VNone))); split; [repeat split|vm_compute; reflexivity]. Qed.

(** C77: "records are written in the order of their times" fails: LogItem compares by the beginning, a call is recorded at
    its end. *)
Theorem C77_written_in_order_of_time_refuted : exists q, leaves_times q /\ never_back clock0 /\
  run0 clock0 q = [(KNorm 1, Some (VInt 1), Some (VInt 3)); (KNorm 0, Some (VInt 0), Some (VInt 9))].
Proof.
  exists (Logged p0 [] [] (leaf p0 (Done (ORet VNone))) Done); split; [repeat split|split; [|vm_compute; reflexivity]].
  intros n; unfold clock0; lia.
Qed.

(** C77: "before or inside" fails if "with log.suppress(x)" was refused inside a block: the outer block then records the
    object of the failed one, whose beginning lies inside of a call that ended before. *)
Theorem C77_before_or_inside_refuted : exists q a b c d, leaves_times q /\ never_back clock0 /\
  run0 clock0 q = [(KExc 0 (mkE 1 1 true), Some (VInt a), Some (VInt (b - a))); (KBlock 1, Some (VInt c), Some (VInt (d - c)))] /\ (a < c < b)%Z /\ (b < d)%Z.
Proof.
  exists (WithR [] None (fun _ => Logged p0 [] [] (WithR [] (Some [VInt 3]) (fun _ => Done (ORet VNone)) Done) (fun _ => Done (ORet VNone))) Done), 1%Z, 9%Z, 4%Z, 16%Z.
  split; [repeat split|split; [intros n; unfold clock0; lia|split; [vm_compute; reflexivity|split; [split; reflexivity|reflexivity]]]].
Qed.

(** C77: the user can give the times: message(time=...) is put into the record if unknown fields are allowed. *)
Example ex_given_time : times (tr (cs (fst (execc W0 clock0 stamp0 stamp0 (Logged p0 [] [] (Msg [] [("time", VInt 77)] (skip (Done (ORet VNone)))) Done)
     (startc (mkCfg 0 1 5 false true None [] [] false true true false))))))
  = [(KNorm 0, Some (VInt 77), Some (VInt 1))].
Proof. vm_compute; reflexivity. Qed.

Print Assumptions C77_readings.
Print Assumptions C77_times.
Print Assumptions C77_call.
Print Assumptions C77_standing_clock.
