(** Lemmas about manual logging. *)
From Verif Require Import Base Handle_Model Handle_Spec.
From Coq Require Import Lia.
Local Open Scope string_scope.
Local Open Scope list_scope.

Lemma fget_fset : forall f k v k2, fget (fset f k v) k2 = if String.eqb k2 k then Some v else fget f k2.
Proof. intros; unfold fget, fset; apply dget_dset; apply String.eqb_spec. Qed.

Lemma memb_In : forall k l, memb k l = true <-> In k l.
Proof.
  intros k l; unfold memb; rewrite existsb_exists; split.
  - intros [y [Hy E]]; apply String.eqb_eq in E; subst; exact Hy.
  - intros H; exists k; split; [exact H|apply String.eqb_refl].
Qed.

Lemma memb_not : forall k l, memb k l = false <-> ~ In k l.
Proof. intros k l; rewrite <- memb_In; destruct (memb k l); split; congruence. Qed.

Lemma key_spec : forall k0 k, convert_key k0 = k <-> canonical k0 k.
Proof.
  intros k0 k; unfold convert_key, canonical; split.
  - intros <-.
    destruct (String.eqb_spec k0 "vars") as [->|N1]; [left; constructor|].
    destruct (String.eqb_spec k0 "locals") as [->|N2]; [left; constructor|].
    destruct (String.eqb_spec k0 "e") as [->|N3]; [left; constructor|].
    destruct (String.eqb_spec k0 "class_") as [->|N4]; [left; constructor|].
    right; split; [reflexivity|]; intros [k' H]; inversion H; congruence.
  - intros [H|[-> H]]; [inversion H; reflexivity|].
    destruct (String.eqb_spec k0 "vars") as [->|N1]; [exfalso; apply H; eexists; constructor|].
    destruct (String.eqb_spec k0 "locals") as [->|N2]; [exfalso; apply H; eexists; constructor|].
    destruct (String.eqb_spec k0 "e") as [->|N3]; [exfalso; apply H; eexists; constructor|].
    destruct (String.eqb_spec k0 "class_") as [->|N4]; [exfalso; apply H; eexists; constructor|reflexivity].
Qed.

Lemma key_not_vars : forall k0, convert_key k0 <> "vars".
Proof.
  intros k0; unfold convert_key.
  destruct (String.eqb_spec k0 "vars"); [discriminate|].
  destruct (String.eqb k0 "locals"); [discriminate|].
  destruct (String.eqb k0 "e"); [discriminate|].
  destruct (String.eqb k0 "class_"); [discriminate|congruence].
Qed.

Lemma allowed_spec : forall k v, k <> "vars" ->
  match allowed k v with
  | Some true => known k /\ right_type k v
  | Some false => known k /\ ~ right_type k v
  | None => ~ known k
  end.
Proof.
  intros k v Nv; unfold allowed, known.
  assert (K : forall x, In x ["function"; "module"; "class"; "message"; "exception"; "success"; "level"; "local_variables"] ->
     k = x -> In k ["function"; "module"; "class"; "message"; "exception"; "success"; "level"; "local_variables"])
    by (intros x Hx ->; exact Hx).
  destruct (String.eqb_spec k "function") as [->|N1].
  { destruct v; cbn; try (split; [tauto|]; try (intros H; inversion H); constructor; cbn; tauto). }
  destruct (String.eqb_spec k "module") as [->|N2].
  { destruct v; cbn; try (split; [tauto|]; try (intros H; inversion H); constructor; cbn; tauto). }
  destruct (String.eqb_spec k "class") as [->|N3].
  { destruct v; cbn; try (split; [tauto|]; try (intros H; inversion H); constructor; cbn; tauto). }
  destruct (String.eqb_spec k "message") as [->|N4].
  { destruct v; cbn; try (split; [tauto|]; try (intros H; inversion H); constructor; cbn; tauto). }
  destruct (String.eqb_spec k "exception") as [->|N5].
  { destruct v; cbn; try (split; [tauto|]; try (intros H; inversion H); constructor; cbn; tauto).
    destruct (e_exc e) eqn:E; split; try tauto; [constructor; exact E|intros H; inversion H; congruence]. }
  destruct (String.eqb_spec k "vars") as [->|N6]; [contradiction|].
  destruct (String.eqb_spec k "success") as [->|N7].
  { destruct v; cbn; try (split; [tauto|]; try (intros H; inversion H; cbn in *; intuition discriminate); constructor; cbn; tauto). }
  destruct (String.eqb_spec k "level") as [->|N8].
  { destruct v; cbn; try (split; [tauto|]; try (intros H; inversion H); constructor; cbn; tauto). }
  destruct (String.eqb_spec k "local_variables") as [->|N9].
  { destruct v; cbn; try (split; [tauto|]; try (intros H; inversion H); constructor; cbn; tauto). }
  cbn; intuition congruence.
Qed.

Lemma convert_spec : forall c k v x, convert_value c k v = Ok x <-> converted c k v x.
Proof.
  intros c k v x; unfold convert_value.
  destruct (String.eqb_spec k "level") as [->|N1].
  - split.
    + intros H; destruct v; cbn [level_get bindR] in H; try discriminate.
      * destruct (Z.ltb_spec z 0); [discriminate|]; injection H as <-; constructor; exact H0.
      * destruct (dget String.eqb (c_levels c) s) eqn:E; [|discriminate]; injection H as <-; constructor; exact E.
    + intros H; inversion H as [z Hz|s z Hs| | |? ? N]; subst; cbn [level_get bindR].
      * destruct (Z.ltb_spec z 0); [lia|reflexivity].
      * rewrite Hs; reflexivity.
      * congruence.
  - destruct (String.eqb_spec k "class") as [->|N2].
    + split.
      * intros H; injection H as <-; destruct v; try (constructor; congruence).
      * intros H; inversion H; subst; try congruence; try reflexivity.
        destruct x; try reflexivity; exfalso; eapply H0; reflexivity.
    + split; [intros H; injection H as <-; constructor; assumption|].
      intros H; inversion H; subst; congruence.
Qed.

Lemma convert_err : forall c k v e, convert_value c k v = Err e -> e = EKeyError.
Proof.
  intros c k v e H; unfold convert_value in H.
  destruct (String.eqb k "level"); [|destruct (String.eqb k "class"); discriminate].
  destruct v; cbn [level_get] in H; try (cbn [bindR] in H; congruence).
  - destruct (z <? 0)%Z; cbn [bindR] in H; congruence.
  - destruct (dget String.eqb (c_levels c) s); cbn [bindR] in H; congruence.
Qed.

(** One argument whose field is not there yet. *)
Lemma put_kw_new : forall c fb all kw d k0 v, fget d (convert_key k0) = None ->
  let k := convert_key k0 in
  (accepted c fb all k v -> forall x, convert_value c k v = Ok x -> put_kw c fb all kw d k0 v = Ok (not_none d k x)) /\
  (accepted c fb all k v -> forall e, convert_value c k v = Err e -> put_kw c fb all kw d k0 v = Err e) /\
  (~ accepted c fb all k v -> c_silent c = true -> put_kw c fb all kw d k0 v = Ok d) /\
  (~ accepted c fb all k v -> c_silent c = false -> exists e, put_kw c fb all kw d k0 v = Err e).
Proof.
  intros c fb all kw d k0 v Hd k; unfold put_kw; cbv zeta beta; rewrite Hd; change (convert_key k0) with k.
  pose proof (allowed_spec k v (key_not_vars k0)) as A.
  unfold accepted, maybe_raise.
  destruct (memb k fb) eqn:Mf.
  { apply memb_In in Mf; split; [|split; [|split]]; try (intros [H _]; contradiction).
    - intros _ ->; reflexivity.
    - intros _ ->; eexists; reflexivity. }
  apply memb_not in Mf.
  destruct (allowed k v) as [[|]|].
  - split; [|split; [|split]]; try (intros H; exfalso; apply H; split; [exact Mf|tauto]).
    + intros _ x ->; reflexivity.
    + intros _ e ->; reflexivity.
  - split; [|split; [|split]]; try (intros [_ [H|H]]; tauto).
    + intros _ ->; reflexivity.
    + intros _ ->; eexists; reflexivity.
  - destruct (memb k (c_extra c)) eqn:Me.
    { apply memb_In in Me; split; [|split; [|split]]; try (intros H; exfalso; apply H; split; [exact Mf|tauto]).
      - intros _ x ->; reflexivity.
      - intros _ e ->; reflexivity. }
    apply memb_not in Me.
    destruct (all || c_unknown c) eqn:Ea.
    + apply orb_true_iff in Ea.
      split; [|split; [|split]]; try (intros H; exfalso; apply H; split; [exact Mf|tauto]).
      * intros _ x ->; reflexivity.
      * intros _ e ->; reflexivity.
    + apply orb_false_iff in Ea; destruct Ea as [E1 E2].
      split; [|split; [|split]]; try (intros [_ [H|[_ [H|[H|H]]]]]; [tauto|contradiction|congruence|congruence]).
      * intros _ ->; reflexivity.
      * intros _ ->; eexists; reflexivity.
Qed.

Lemma accepted_dec : forall c fb all k v, k <> "vars" -> {accepted c fb all k v} + {~ accepted c fb all k v}.
Proof.
  intros c fb all k v N; pose proof (allowed_spec k v N) as A; unfold accepted.
  destruct (memb k fb) eqn:Mf; [apply memb_In in Mf; right; tauto|]; apply memb_not in Mf.
  destruct (allowed k v) as [[|]|]; [left; tauto|right; tauto|].
  destruct (memb k (c_extra c)) eqn:Me; [apply memb_In in Me; left; tauto|]; apply memb_not in Me.
  destruct all; [left; tauto|]; destruct (c_unknown c) eqn:E; [left; tauto|right; intuition congruence].
Qed.

Lemma not_none_get : forall d k x k2, fget (not_none d k x) k2 =
  if String.eqb k2 k then match x with VNone => fget d k2 | _ => Some x end else fget d k2.
Proof.
  intros d k x k2; unfold not_none; destruct x; try apply fget_fset; destruct (String.eqb k2 k); reflexivity.
Qed.

(** The rest of the keyword arguments, whose fields are all new. *)
Lemma put_kws_spec : forall c fb all kw rest d,
  NoDup (map (fun kv => convert_key (fst kv)) rest) ->
  (forall k0 v, In (k0, v) rest -> fget d (convert_key k0) = None) ->
  (c_silent c = true \/ forall k0 v, In (k0, v) rest -> accepted c fb all (convert_key k0) v) ->
  (forall k0 v, In (k0, v) rest -> accepted c fb all (convert_key k0) v -> exists x, convert_value c (convert_key k0) v = Ok x) ->
  exists f, put_kws c fb all kw rest d = Ok f /\
    forall k x, fget f k = Some x <-> (fget d k = Some x \/ exists k0 v, In (k0, v) rest /\ convert_key k0 = k /\
      accepted c fb all k v /\ convert_value c k v = Ok x /\ x <> VNone).
Proof.
  intros c fb all kw rest; induction rest as [|[k0 v] rest IH]; intros d N Hd Hs Hc; cbn [put_kws].
  { exists d; split; [reflexivity|]; intros k x; split; [auto|intros [H|[k0 [v [[] _]]]]; exact H]. }
  cbn [map fst] in N; inversion N as [|? ? Ni N']; subst.
  pose proof (put_kw_new c fb all kw d k0 v (Hd k0 v (or_introl eq_refl))) as [P1 [_ [P3 _]]].
  assert (Hfresh : forall k1 v1, In (k1, v1) rest -> convert_key k1 <> convert_key k0).
  { intros k1 v1 Hin E; apply Ni; rewrite <- E; apply in_map_iff; exists (k1, v1); auto. }
  destruct (accepted_dec c fb all (convert_key k0) v (key_not_vars k0)) as [Ac|Na].
  - destruct (Hc k0 v (or_introl eq_refl) Ac) as [x0 Hx0].
    rewrite (P1 Ac x0 Hx0); cbn [bindR].
    destruct (IH (not_none d (convert_key k0) x0) N') as [f [Ef Hf]].
    + intros k1 v1 Hin; rewrite not_none_get; destruct (String.eqb_spec (convert_key k1) (convert_key k0)) as [E|E];
        [exfalso; exact (Hfresh k1 v1 Hin E)|apply (Hd k1 v1); right; exact Hin].
    + destruct Hs as [Hs|Hs]; [left; exact Hs|right; intros; apply Hs; right; assumption].
    + intros k1 v1 Hin; apply Hc; right; exact Hin.
    + exists f; split; [exact Ef|]; intros k x; rewrite Hf, not_none_get; split.
      * intros [H|[k1 [v1 [Hin H]]]]; [|right; exists k1, v1; split; [right; exact Hin|exact H]].
        destruct (String.eqb_spec k (convert_key k0)) as [->|E]; [|left; exact H].
        destruct x0; try (injection H as <-; right; exists k0, v; split; [left; reflexivity|];
          split; [reflexivity|split; [exact Ac|split; [exact Hx0|discriminate]]]).
        left; exact H.
      * intros [H|[k1 [v1 [[Hin|Hin] [Ek [Ha [Hv Hn]]]]]]].
        -- left; destruct (String.eqb_spec k (convert_key k0)) as [->|E]; [|exact H].
           rewrite (Hd k0 v (or_introl eq_refl)) in H; discriminate.
        -- injection Hin as <- <-; left; rewrite <- Ek, String.eqb_refl; rewrite <- Ek in Hv.
           rewrite Hx0 in Hv; injection Hv as ->; destruct x; congruence.
        -- right; exists k1, v1; auto.
  - destruct Hs as [Hs|Hs]; [|exfalso; apply Na; apply Hs; left; reflexivity].
    rewrite (P3 Na Hs); cbn [bindR].
    destruct (IH d N') as [f [Ef Hf]].
    + intros k1 v1 Hin; apply (Hd k1 v1); right; exact Hin.
    + left; exact Hs.
    + intros k1 v1 Hin; apply Hc; right; exact Hin.
    + exists f; split; [exact Ef|]; intros k x; rewrite Hf; split.
      * intros [H|[k1 [v1 [Hin H]]]]; [left; exact H|right; exists k1, v1; split; [right; exact Hin|exact H]].
      * intros [H|[k1 [v1 [[Hin|Hin] [Ek [Ha H]]]]]]; [left; exact H| |right; exists k1, v1; auto].
        injection Hin as <- <-; rewrite <- Ek in Ha; contradiction.
Qed.

Lemma distinct_nodup : forall kw, (forall i j k1 k2 v1 v2 k, nth_error kw i = Some (k1, v1) -> nth_error kw j = Some (k2, v2) ->
  canonical k1 k -> canonical k2 k -> i = j) -> NoDup (map (fun kv : string * val => convert_key (fst kv)) kw).
Proof.
  intros kw H; apply NoDup_nth_error; intros i j Hi E; rewrite map_length in Hi.
  rewrite !nth_error_map in E.
  destruct (nth_error kw i) as [[k1 v1]|] eqn:E1; [|apply nth_error_None in E1; lia].
  destruct (nth_error kw j) as [[k2 v2]|] eqn:E2; cbn [option_map fst] in E; [|discriminate].
  injection E as E; apply (H i j k1 k2 v1 v2 (convert_key k1) E1 E2); apply key_spec; congruence.
Qed.

(** Errors in silent mode. *)
Lemma put_kw_silent : forall c fb all kw d k0 v e, c_silent c = true -> put_kw c fb all kw d k0 v = Err e -> e = EKeyError.
Proof.
  intros c fb all kw d k0 v e S H; unfold put_kw, maybe_raise in H; cbv zeta beta in H; rewrite S in H; cbn [bindR] in H.
  destruct (memb (convert_key k0) fb); [discriminate|].
  assert (St : bindR (convert_value c (convert_key k0) v) (fun v' =>
        match fget d (convert_key k0) with
        | Some old => match fget kw (convert_key k0) with
            | None => Err EKeyError
            | Some orig => if veq old orig then Ok (not_none d (convert_key k0) v') else Ok d
            end
        | None => Ok (not_none d (convert_key k0) v')
        end) = Err e -> e = EKeyError).
  { destruct (convert_value c (convert_key k0) v) as [x|e'] eqn:E; cbn [bindR].
    - destruct (fget d (convert_key k0)) as [old|]; [|discriminate].
      destruct (fget kw (convert_key k0)) as [orig|]; [|congruence].
      destruct (veq old orig); discriminate.
    - intros Z; injection Z as <-; exact (convert_err _ _ _ _ E). }
  destruct (allowed (convert_key k0) v) as [[|]|]; [exact (St H)|discriminate|].
  destruct (memb (convert_key k0) (c_extra c)); [exact (St H)|].
  destruct (all || c_unknown c); [exact (St H)|discriminate].
Qed.

Lemma put_kws_silent : forall c fb all kw rest d e, c_silent c = true -> put_kws c fb all kw rest d = Err e -> e = EKeyError.
Proof.
  intros c fb all kw rest; induction rest as [|[k v] rest IH]; intros d e S H; cbn [put_kws] in H; [discriminate|].
  destruct (put_kw c fb all kw d k v) as [d'|e'] eqn:E; cbn [bindR] in H; [exact (IH d' e S H)|].
  injection H as <-; exact (put_kw_silent _ _ _ _ _ _ _ _ S E).
Qed.

(** A field, once stored, stays. *)
Lemma put_kw_keeps : forall c fb all kw d k0 v d' k, put_kw c fb all kw d k0 v = Ok d' -> fget d k <> None -> fget d' k <> None.
Proof.
  intros c fb all kw d k0 v d' k H Hk; unfold put_kw, maybe_raise in H; cbv zeta beta in H.
  assert (Nn : forall x, fget (not_none d (convert_key k0) x) k <> None).
  { intros x; rewrite not_none_get; destruct (String.eqb k (convert_key k0)); [destruct x; congruence|exact Hk]. }
  destruct (memb (convert_key k0) fb); [destruct (c_silent c); cbn [bindR] in H; congruence|].
  assert (St : bindR (convert_value c (convert_key k0) v) (fun v' =>
        match fget d (convert_key k0) with
        | Some old => match fget kw (convert_key k0) with
            | None => Err EKeyError
            | Some orig => if veq old orig then Ok (not_none d (convert_key k0) v')
                           else bindR (if c_silent c then Ok tt else Err EValueError) (fun _ => Ok d)
            end
        | None => Ok (not_none d (convert_key k0) v')
        end) = Ok d' -> fget d' k <> None).
  { destruct (convert_value c (convert_key k0) v) as [x|e']; cbn [bindR]; [|discriminate].
    destruct (fget d (convert_key k0)) as [old|].
    - destruct (fget kw (convert_key k0)) as [orig|]; [|discriminate].
      destruct (veq old orig); [intros Z; injection Z as <-; apply Nn|].
      destruct (c_silent c); cbn [bindR]; [intros Z; injection Z as <-; exact Hk|discriminate].
    - intros Z; injection Z as <-; apply Nn. }
  destruct (allowed (convert_key k0) v) as [[|]|]; [exact (St H)|destruct (c_silent c); cbn [bindR] in H; congruence|].
  destruct (memb (convert_key k0) (c_extra c)); [exact (St H)|].
  destruct (all || c_unknown c); [exact (St H)|destruct (c_silent c); cbn [bindR] in H; congruence].
Qed.

(** An accepted argument makes its field present, or the call fails. *)
Lemma put_kw_stores : forall c fb all kw d k0 v d', put_kw c fb all kw d k0 v = Ok d' -> accepted c fb all (convert_key k0) v ->
  v <> VNone -> fget d' (convert_key k0) <> None.
Proof.
  intros c fb all kw d k0 v d' H Ac Nv.
  destruct (fget d (convert_key k0)) as [old|] eqn:E.
  - apply (put_kw_keeps c fb all kw d k0 v d' _ H); rewrite E; discriminate.
  - pose proof (put_kw_new c fb all kw d k0 v E) as [P1 [P2 _]].
    destruct (convert_value c (convert_key k0) v) as [x|e] eqn:Ec.
    + rewrite (P1 Ac x eq_refl) in H; injection H as <-; rewrite not_none_get, String.eqb_refl.
      apply convert_spec in Ec; inversion Ec; subst; try discriminate; destruct x; congruence.
    + rewrite (P2 Ac e eq_refl) in H; discriminate.
Qed.

(** A second argument for a field that is present, under an alias only: KeyError. *)
Lemma put_kw_collision : forall c fb all kw d k0 v, accepted c fb all (convert_key k0) v -> fget d (convert_key k0) <> None ->
  fget kw (convert_key k0) = None -> exists e, put_kw c fb all kw d k0 v = Err e.
Proof.
  intros c fb all kw d k0 v Ac Hd Hk; unfold put_kw; cbv zeta beta.
  pose proof (allowed_spec (convert_key k0) v (key_not_vars k0)) as A; destruct Ac as [Ac1 Ac2].
  apply memb_not in Ac1; rewrite Ac1.
  assert (St : exists e, bindR (convert_value c (convert_key k0) v) (fun v' =>
        match fget d (convert_key k0) with
        | Some old => match fget kw (convert_key k0) with
            | None => Err EKeyError
            | Some orig => if veq old orig then Ok (not_none d (convert_key k0) v')
                           else bindR (maybe_raise c EValueError) (fun _ => Ok d)
            end
        | None => Ok (not_none d (convert_key k0) v')
        end) = Err e).
  { destruct (convert_value c (convert_key k0) v) as [x|e']; cbn [bindR]; [|eauto].
    destruct (fget d (convert_key k0)); [|congruence]; rewrite Hk; eauto. }
  destruct (allowed (convert_key k0) v) as [[|]|]; [exact St|tauto|].
  destruct (memb (convert_key k0) (c_extra c)) eqn:Me; [exact St|].
  destruct (all || c_unknown c) eqn:Ea; [exact St|].
  apply memb_not in Me; apply orb_false_iff in Ea; destruct Ea; intuition congruence.
Qed.
