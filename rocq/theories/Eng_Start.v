(** The first write, in programs that do not set 'started' themselves. *)
From Verif Require Import Base Eng_Model Eng_Spec Eng_Moves Eng_Inv Eng_Struct Eng_Trace Eng_Stop Eng_Flush Eng_Hook Eng_Facts.

(** What is left of the program of a thread avoids the commands [bad]. *)
Definition avoids (bad : cmd -> bool) (x : act) : Prop :=
  match abase x with
  | BThread cs pc => (forall c, In c cs -> bad c = false) /\
      (match pc with T0 | T1 => bad CStarted = false | H1 | H2 | H3 _ => bad CHook = false | _ => True end)
  | _ => True
  end.

Section Start.
  Variable nested : nat -> list nat.
  Notation trans := (trans nested).

  Lemma lm_avoids : forall bad ex n x g x' g' new, lm nested ex n x g x' g' new -> avoids bad x -> avoids bad x'.
  Proof.
    intros bad ex n x g x' g' new H A; mcases H; unfold avoids in *; cbn [abase] in *; try exact A; try exact I; destruct A as (A1 & A2);
      try (split; [intros c Hc; apply A1; try right; exact Hc|first [exact I|exact A2|apply (A1 CStarted); left; reflexivity|apply (A1 CHook); left; reflexivity]]).
  Qed.
  Lemma avoids_reach : forall bad progs p q s, never bad progs -> reachable nested progs p q s -> forall x, In x (actors s) -> avoids bad x.
  Proof.
    intros bad progs p q s N; apply (reach_inv nested (fun s => forall x, In x (actors s) -> avoids bad x)).
    - intros x Hx; apply in_map_iff in Hx; destruct Hx as (cs & <- & Hcs); split; [intros c Hc; apply (N cs c Hcs Hc)|exact I].
    - intros s1 s2 _ _ A (l1 & x & l2 & x' & g' & new & E & H & ->) y Hy; cbn [actors] in Hy; apply in_cases in Hy; destruct Hy as [->|[Hy|Hy]].
      + eapply lm_avoids; [exact H|]; apply A; rewrite E; apply in_mid.
      + apply A; rewrite E; apply in_old; exact Hy.
      + destruct (lm_new _ _ _ _ _ _ _ _ _ H Hy) as (k & j & ->); exact I.
  Qed.

  (** Program points where an instance must exist. *)
  Definition w_need (pc : wpc) : bool := match pc with W0 | W1 | W2 | W3a | W3b | W3c => false | _ => true end.
  Definition f_need (f : frame) : Prop := match f with FWrite pc _ => w_need pc = true | _ => True end.
  Definition need (x : act) : Prop := (exists f, In f (astack x) /\ f_need f) \/
    match abase x with BThread _ S6 | BThread _ (S7 _) | BThread _ S8 | BThread _ S9 | BThread _ S10 | BThread _ H2 | BThread _ (H3 _) => True | _ => False end.
  Definition InvB (s : state) : Prop :=
    length (inits (trace (sh s))) = b2n (started (sh s)) /\
    (started (sh s) = true -> engs (sh s) = [] -> exists x, In x (actors s) /\ at_pc x W3c) /\
    (forall x, In x (actors s) -> at_pc x W3a \/ at_pc x W3b -> started (sh s) = false) /\
    (forall x, In x (actors s) -> need x -> engs (sh s) <> []) /\
    (wmode (sh s) <> MFirst -> engs (sh s) <> []) /\
    crashes (trace (sh s)) = [].

  Lemma lm_engs_mono : forall ex n x g x' g' new, lm nested ex n x g x' g' new -> engs g <> [] -> engs g' <> [].
  Proof. intros ex n x g x' g' new H N Q; destruct (lm_gle _ _ _ _ _ _ _ _ H) as (_ & L & _); rewrite Q in L; destruct (engs g); [congruence|cbn in L; lia]. Qed.

  Ltac unat := unfold at_pc in *; cbn [astack In] in *.
  Lemma l_init : forall ex n x g x' g' new, lm nested ex n x g x' g' new -> avoids is_started x ->
    length (inits (trace g)) = b2n (started g) -> length (inits (trace g')) = b2n (started g').
  Proof.
    intros ex n x g x' g' new H A Q; mcases H; proj; rewrite ?store_trace, ?store_started; ev; try exact Q.
    - rewrite app_length, Q; match goal with E : started g = _ |- _ => rewrite E end; reflexivity.
    - destruct A as (_ & A); discriminate A.
  Qed.
  Lemma l_started : forall ex n x g x' g' new, lm nested ex n x g x' g' new -> avoids is_started x ->
    started g' = started g \/ (at_pc x W3b /\ at_pc x' W3c).
  Proof.
    intros ex n x g x' g' new H A; mcases H; proj; rewrite ?store_started; auto.
    - right; split; eexists; left; reflexivity.
    - destruct A as (_ & A); discriminate A.
  Qed.
  (** Where a frame of the new stack comes from. *)
  Lemma l_at : forall ex n x g x' g' new pc, lm nested ex n x g x' g' new -> at_pc x' pc -> at_pc x pc \/
    match pc with
    | W0 => True
    | W1 => wmode g = MFirst
    | W2 => at_pc x W1 /\ elock g = false
    | W3a => at_pc x W2 /\ started g = false
    | W3b => at_pc x W3a
    | W3c => at_pc x W3b /\ started g = false
    | W3d => at_pc x W3c /\ engs g' <> []
    | W4 => at_pc x W3d \/ (at_pc x W2 /\ started g = true)
    | W5 => at_pc x W4 \/ wmode g = MNew
    | W6 k => at_pc x W5 /\ cur g = Some k
    | W7 => exists k, at_pc x (W6 k)
    | B1 => wmode g = MBlocked
    | B2 => at_pc x B1 /\ elock g = false
    | B3 k => at_pc x B2 /\ cur g = Some k
    | B4 => exists k, at_pc x (B3 k)
    end.
  Proof.
    intros ex n x g x' g' new pc0 H (r0 & Q); mcases H; cbn [astack In] in Q |- *; try (destruct Q; fail);
      try (left; exists r0; cbn; tauto);
      try (destruct Q as [Q|Q]; [|left; exists r0; cbn; tauto]; injection Q as <- <-; right; unat;
           first [exact I|eauto|split; [eexists; left; reflexivity|first [assumption|reflexivity]]|left; eauto|right; eauto]; fail).
    - subst pc; destruct Q as [Q|Q]; [|left; exists r0; cbn; tauto]; injection Q as Q <-; right; destruct (wmode g) eqn:M; subst pc0; auto.
    - destruct Q as [Q|Q]; [|left; exists r0; cbn; tauto]; injection Q as <- <-; right; split; [eexists; left; reflexivity|]; cbn [load engs]; destruct (engs g); discriminate.
    - destruct Q as [Q|[Q|Q]]; [discriminate Q| |left; exists r0; cbn; tauto]; injection Q as <- <-; right; exists k; eexists; left; reflexivity.
    - destruct Q as [Q|[Q|Q]]; [discriminate Q| |left; exists r0; cbn; tauto]; injection Q as <- <-; right; exists k; eexists; left; reflexivity.
    - destruct Q as [Q|[Q|Q]]; [injection Q as <- <-; right; exact I|discriminate Q|left; exists r0; cbn; tauto].
    - destruct Q as [Q|[]]; discriminate Q.
  Qed.

  Lemma l_need : forall ex n x g x' g' new, lm nested ex n x g x' g' new ->
    (need x -> engs g <> []) -> (wmode g <> MFirst -> engs g <> []) -> (at_pc x W2 -> started g = true -> engs g <> []) ->
    (elock g = false -> late_pc x -> engs g <> []) -> need x' -> engs g' <> [].
  Proof.
    intros ex n x g x' g' new H Hx HM H2 HL.
    assert (engs g <> [] -> engs g' <> []) as G by (apply (lm_engs_mono _ _ _ _ _ _ _ H)).
    intros N.
    mcases H; try (cbn [load engs]; destruct (engs g); discriminate); apply G; unfold need in *; cbn [abase astack] in *.
    all: try (destruct N as [(f & Hf & N)|N]; [|first [destruct N; fail|apply Hx; right; exact N|apply Hx; right; exact I|apply HL; [assumption|exact I]]]).
    all: try (destruct Hf; fail).
    all: try (match goal with Q : nth_error (engs ?gg) ?kk = Some _ |- _ => intros Z; rewrite Z in Q; destruct kk; discriminate Q end).
    all: try (apply Hx; left; exists f; split; [first [right; exact Hf|exact Hf]|exact N]).
    all: try (cbn [In] in Hf; destruct Hf as [<-|Hf]; [|first [destruct Hf; fail|apply Hx; left; exists f; split; [right; exact Hf|exact N]]]; cbn in N;
      first [discriminate N|apply Hx; left; eexists; split; [left; reflexivity|first [reflexivity|exact I]]]).
    - cbn [In] in Hf; destruct Hf as [<-|Hf]; [|apply Hx; left; exists f; split; [right; exact Hf|exact N]].
      apply HM; intros Z; rewrite Z in *; subst pc; discriminate N.
    - cbn [In] in Hf; destruct Hf as [<-|Hf]; [|apply Hx; left; exists f; split; [right; exact Hf|exact N]].
      apply H2; [eexists; left; reflexivity|assumption].
    - cbn [In] in Hf; destruct Hf as [<-|[<-|Hf]]; [discriminate N| |]; apply Hx; left; eexists; (split; [first [left; reflexivity|right; exact Hf]|first [exact I|exact N]]).
  Qed.
  Lemma l_mode : forall ex n x g x' g' new, lm nested ex n x g x' g' new -> wmode g' = wmode g \/ need x.
  Proof.
    intros ex n x g x' g' new H; mcases H; proj; rewrite ?store_wmode; auto; right; unfold need; cbn [abase astack]; auto.
    left; eexists; split; [left; reflexivity|reflexivity].
  Qed.
  Lemma l_crash : forall ex n x g x' g' new, lm nested ex n x g x' g' new -> crashes (trace g) = [] ->
    crashes (trace g') = [] \/ (at_pc x W3b /\ started g = true) \/ (need x /\ cur g = None).
  Proof.
    intros ex n x g x' g' new H Q; mcases H; proj; rewrite ?store_trace; ev; auto; right.
    - left; split; [eexists; left; reflexivity|assumption].
    - right; split; [left; eexists; split; [left; reflexivity|reflexivity]|assumption].
    - right; split; [left; eexists; split; [left; reflexivity|reflexivity]|assumption].
  Qed.
  (** An actor at W3c stays there or loads. *)
  Lemma l_c : forall ex n x g x' g' new, lm nested ex n x g x' g' new -> at_pc x W3c -> at_pc x' W3c \/ engs g' <> [].
  Proof.
    intros ex n x g x' g' new H (r0 & Q); mcases H; cbn [astack In] in Q; try (destruct Q; fail);
      try (left; exists r0; cbn; intuition (try discriminate); fail).
    all: right; cbn [load engs]; destruct (engs g); discriminate.
  Qed.

  Lemma InvB_reach : forall progs p q s, never is_started progs -> reachable nested progs p q s -> InvB s.
  Proof.
    intros progs p q s N R.
    assert ((forall x, In x (actors s) -> avoids is_started x) /\ InvB s) as [_ K]; [|exact K].
    revert s R; apply reach_inv.
    - split; [intros x Hx; apply in_map_iff in Hx; destruct Hx as (cs & <- & Hcs); split; [intros c Hc; apply (N cs c Hcs Hc)|exact I]|].
      split; [reflexivity|]; split; [discriminate|]; split; [reflexivity|].
      split; [|split; [intros K; destruct (K eq_refl)|reflexivity]].
      intros x Hx; apply in_map_iff in Hx; destruct Hx as (cs & <- & _); intros [(f & [] & _)|[]].
    - intros s s' I0 I0' (AV & B1 & B2 & B3 & B4 & B5 & B6) T.
      destruct I0 as (IA & IE & _ & I1 & _).
      destruct T as (l1 & x & l2 & x' & g' & new & E & H & ->); cbn [actors sh] in *.
      assert (In x (actors s)) as Ix by (rewrite E; apply in_mid).
      pose proof (AV x Ix) as Ax.
      assert (started (sh s) = true -> engs (sh s) = [] -> exists y, In y (actors s) /\ at_pc y W3c /\ (y = x \/ In y (l1 ++ l2))) as B2'.
      { intros P Q; destruct (B2 P Q) as (y & Hy & Ay); exists y; split; [exact Hy|split; [exact Ay|]]; rewrite E in Hy; apply in_rest in Hy; exact Hy. }
      assert (at_pc x W2 -> started (sh s) = true -> engs (sh s) <> []) as HW2.
      { intros A S Q; destruct (B2' S Q) as (y & Hy & Ay & D); pose proof (at_hE _ _ A) as U; pose proof (at_hE _ _ Ay) as V; cbn [w_hE] in U, V.
        destruct D as [->|D].
        - destruct A as (r1 & A); destruct Ay as (r2 & Ay); pose proof (hE_le s x IA Ix) as W.
          unfold hE in W; apply in_split in A; destruct A as (a1 & a2 & A); rewrite A in *; rewrite tot_app, tot_cons in W; cbn [f_hE w_hE] in W.
          apply in_rest in Ay; destruct Ay as [Ay|Ay]; [discriminate Ay|]; pose proof (tot_le f_hE _ _ Ay) as Z; rewrite tot_app in Z; cbn [f_hE w_hE] in Z; lia.
        - destruct (uniq_other s l1 x l2 y IA E D ltac:(lia)) as [Z _]; lia. }
      assert (elock (sh s) = false -> late_pc x -> engs (sh s) <> []) as HLK.
      { intros A L Q; destruct (started (sh s)) eqn:S.
        - destruct (B2 eq_refl Q) as (y & Hy & Ay); apply at_hE in Ay; cbn [w_hE] in Ay; destruct IA as (IA & _); rewrite A in IA; cbn [b2n] in IA.
          pose proof (tot_le hE _ _ Hy); lia.
        - destruct I1 as (I1 & _); destruct (I1 S) as (_ & K); destruct (K x Ix) as (K1 & _); contradiction. }
      split; [|split; [|split; [|split; [|split; [|split]]]]]; cbn [actors sh].
      + intros y Hy; apply in_cases in Hy; destruct Hy as [->|[Hy|Hy]].
        * eapply lm_avoids; [exact H|exact Ax].
        * apply AV; rewrite E; apply in_old; exact Hy.
        * destruct (lm_new _ _ _ _ _ _ _ _ _ H Hy) as (k & j & ->); exact I.
      + eapply l_init; eassumption.
      + intros S Q; destruct (l_started _ _ _ _ _ _ _ H Ax) as [S0|(_ & S0)]; [|exists x'; split; [apply in_mid|exact S0]].
        rewrite S in S0; symmetry in S0.
        assert (engs (sh s) = []) as Q0 by (destruct (engs (sh s)) eqn:Q0; [reflexivity|]; exfalso; eapply (lm_engs_mono _ _ _ _ _ _ _ H); [rewrite Q0; discriminate|exact Q]).
        destruct (B2' S0 Q0) as (y & Hy & Ay & [->|D]).
        * exists x'; split; [apply in_mid|]; destruct (l_c _ _ _ _ _ _ _ H Ay); [assumption|contradiction].
        * exists y; split; [apply in_new; exact D|exact Ay].
      + intros y Hy Ay.
        assert (forall z, In z (actors s) -> at_pc z W3a \/ at_pc z W3b -> 0 < hE z /\ started (sh s) = false) as Old.
        { intros z Hz Az; split; [|eapply B3; eassumption]; destruct Az as [Az|Az]; apply at_hE in Az; cbn [w_hE] in Az; lia. }
        apply in_cases in Hy; destruct Hy as [->|[Hy|Hy]].
        * destruct (l_started _ _ _ _ _ _ _ H Ax) as [S0|(S1 & S2)].
          -- rewrite S0; destruct Ay as [Ay|Ay]; destruct (l_at _ _ _ _ _ _ _ _ H Ay) as [L|L]; first [apply (B3 x Ix); auto; fail|apply L].
          -- exfalso; assert (hE x' <= 1) as Z by (apply (hE_le (mkState (l1 ++ x' :: l2 ++ new) g')); [apply I0'|apply in_mid]).
             destruct S2 as (r2 & S2); unfold hE in Z; apply in_split in S2; destruct S2 as (a1 & a2 & S2).
             assert (exists pc r, (pc = W3a \/ pc = W3b) /\ In (FWrite pc r) (astack x')) as (pc & r3 & P & Ay') by (destruct Ay as [(r3 & Ay)|(r3 & Ay)]; eauto).
             rewrite S2 in *; rewrite tot_app, tot_cons in Z; cbn [f_hE w_hE] in Z.
             apply in_rest in Ay'; destruct Ay' as [Ay'|Ay']; [destruct P as [-> | ->]; discriminate Ay'|].
             pose proof (tot_le f_hE _ _ Ay') as Y; rewrite tot_app in Y; destruct P as [-> | ->]; cbn [f_hE w_hE] in Y; lia.
        * destruct (Old y) as (U & S0); [rewrite E; apply in_old; exact Hy|exact Ay|].
          destruct (l_started _ _ _ _ _ _ _ H Ax) as [->|(S1 & _)]; [exact S0|].
          destruct (uniq_other s l1 x l2 y IA E Hy ltac:(lia)) as [Z _]; apply at_hE in S1; cbn [w_hE] in S1; lia.
        * destruct (lm_new _ _ _ _ _ _ _ _ _ H Hy) as (k & j & ->); destruct Ay as [(r0 & [])|(r0 & [])].
      + intros y Hy Ny; apply in_cases in Hy; destruct Hy as [->|[Hy|Hy]].
        * eapply l_need; [exact H|apply (B4 x Ix)|exact B5|exact HW2|exact HLK|exact Ny].
        * eapply lm_engs_mono; [exact H|]; apply (B4 y); [rewrite E; apply in_old; exact Hy|exact Ny].
        * destruct (lm_new _ _ _ _ _ _ _ _ _ H Hy) as (k & j & ->); destruct Ny as [(f & [] & _)|[]].
      + intros M; eapply lm_engs_mono; [exact H|]; destruct (l_mode _ _ _ _ _ _ _ H) as [M0|M0]; [apply B5; congruence|apply (B4 x Ix M0)].
      + destruct (l_crash _ _ _ _ _ _ _ H B6) as [K|[(K1 & K2)|(K1 & K2)]]; [exact K| |].
        * rewrite (B3 x Ix (or_intror K1)) in K2; discriminate K2.
        * apply (B4 x Ix) in K1; destruct IE as (_ & _ & IC); rewrite IC in K2; destruct (engs (sh s)); [congruence|discriminate K2].
  Qed.
End Start.
