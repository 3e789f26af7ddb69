(** Proofs about the clock. *)
From Coq Require Import Relations Lia.
From Verif Require Import Base Handle_Model Handle_Spec Handle_Proofs Handle_Props Supp_Model Call_Model Call_Spec Call_Proofs Call_Inv Call_Struct Block_Props Clock_Model Clock_Spec.
Local Open Scope string_scope.
Local Open Scope list_scope.

(** * Dictionaries *)

Definition occ (k : string) (f : fields) : nat := length (filter (fun p => String.eqb k (fst p)) f).
Lemma occ_none : forall k f, fget f k = None -> occ k f = 0.
Proof.
  intros k; induction f as [|[q v] r IH]; intros H; [reflexivity|]; unfold occ; cbn [filter fst].
  assert (G : fget ((q, v) :: r) k = if String.eqb k q then Some v else fget r k) by reflexivity; rewrite G in H.
  destruct (String.eqb k q); [discriminate H|exact (IH H)].
Qed.
Lemma occ_fset_other : forall k f q v, k <> q -> occ k (fset f q v) = occ k f.
Proof.
  intros k f q v N; induction f as [|[q' v'] r IH].
  - unfold occ, fset; cbn; destruct (String.eqb_spec k q); [contradiction|reflexivity].
  - unfold fset; cbn [dset]; destruct (String.eqb q q') eqn:E; [unfold occ; cbn [filter fst]; destruct (String.eqb k q'); reflexivity|].
    unfold occ in *; cbn [filter fst]; unfold fset in IH; destruct (String.eqb k q'); cbn [length]; rewrite IH; reflexivity.
Qed.
Lemma occ_fset : forall k f q v, occ k f <= 1 -> occ k (fset f q v) <= 1.
Proof.
  intros k f q v H; destruct (string_dec k q) as [->|N]; [|rewrite occ_fset_other by exact N; exact H].
  induction f as [|[q' v'] r IH].
  - unfold occ, fset; cbn; rewrite String.eqb_refl; cbn; lia.
  - unfold fset; cbn [dset]; destruct (String.eqb q q') eqn:E.
    + unfold occ in *; cbn [filter fst] in *; rewrite E in *; cbn [length] in *; lia.
    + unfold occ in *; cbn [filter fst] in *; rewrite E in *; exact (IH H).
Qed.
Lemma update_none : forall m f k, fget m k = None -> fget (update f m) k = fget f k.
Proof.
  induction m as [|[q v] r IH]; intros f k H; [reflexivity|]; cbn [update].
  assert (G : fget ((q, v) :: r) k = if String.eqb k q then Some v else fget r k) by reflexivity; rewrite G in H.
  destruct (String.eqb_spec k q) as [|N]; [discriminate H|]; rewrite IH by exact H; apply fset_other; exact N.
Qed.
Lemma update_occ : forall m f k, occ k f <= 1 -> occ k (update f m) <= 1.
Proof. induction m as [|[q v] r IH]; intros f k H; [exact H|]; cbn [update]; apply IH, occ_fset, H. Qed.

(** * The fields of manual records *)

Lemma put_kw_frame : forall c fb all kw d k0 v d' k, put_kw c fb all kw d k0 v = Ok d' -> convert_key k0 <> k -> fget d' k = fget d k.
Proof.
  intros c fb all kw d k0 v d' k H N; unfold put_kw in H.
  assert (Nn : forall x, fget (not_none d (convert_key k0) x) k = fget d k).
  { intros x; rewrite not_none_get; destruct (String.eqb_spec k (convert_key k0)); [congruence|reflexivity]. }
  assert (M : forall e, bindR (maybe_raise c e) (fun _ => Ok d) = Ok d' -> fget d' k = fget d k).
  { intros e Z; destruct (maybe_raise c e); cbn in Z; [injection Z as <-; reflexivity|discriminate Z]. }
  destruct (memb (convert_key k0) fb); [exact (M _ H)|].
  set (stor := bindR (convert_value c (convert_key k0) v) _) in H.
  assert (S : stor = Ok d' -> fget d' k = fget d k).
  { unfold stor; destruct (convert_value c (convert_key k0) v) as [w|]; cbn [bindR]; [|discriminate].
    destruct (fget d (convert_key k0)); [|intros Z; injection Z as <-; apply Nn].
    destruct (fget kw (convert_key k0)); [|discriminate]; destruct (veq v0 v1); [intros Z; injection Z as <-; apply Nn|apply M]. }
  destruct (allowed (convert_key k0) v) as [[|]|]; [exact (S H)|exact (M _ H)|].
  destruct (memb (convert_key k0) (c_extra c)); [exact (S H)|]; destruct (all || c_unknown c); [exact (S H)|exact (M _ H)].
Qed.
Lemma put_kws_frame : forall c fb all kw k, plain_key k -> forall rest d d', put_kws c fb all kw rest d = Ok d' -> fget rest k = None -> fget d' k = fget d k.
Proof.
  intros c fb all kw k P; induction rest as [|[q v] r IH]; intros d d' H N; cbn [put_kws] in H; [injection H as <-; reflexivity|].
  destruct (put_kw c fb all kw d q v) as [d1|x] eqn:E; cbn [bindR] in H; [|discriminate H].
  assert (G : fget ((q, v) :: r) k = if String.eqb k q then Some v else fget r k) by reflexivity; rewrite G in N.
  destruct (String.eqb_spec k q) as [|Ne]; [discriminate N|]; rewrite (IH _ _ H N); apply (put_kw_frame _ _ _ _ _ _ _ _ _ E).
  intros Z; apply Ne; symmetry; apply plain_only; assumption.
Qed.
Lemma put_kws_once : forall c kw k, plain_key k -> forall rest d d', put_kws c [] true kw rest d = Ok d' -> occ k rest <= 1 -> fget d k = None ->
  fget d' k = stored c k (fget rest k).
Proof.
  intros c kw k P; induction rest as [|[q v] r IH]; intros d d' H N Hd; [cbn [put_kws] in H; injection H as <-; exact Hd|].
  assert (G : fget ((q, v) :: r) k = if String.eqb k q then Some v else fget r k) by reflexivity; rewrite G.
  unfold occ in N; cbn [filter fst] in N; destruct (String.eqb_spec k q) as [<-|Ne].
  - cbn [length] in N; assert (N0 : fget r k = None).
    { destruct (fget r k) as [w|] eqn:E; [exfalso|reflexivity]; apply (dget_In _ String.eqb_spec) in E.
      assert (In (k, w) (filter (fun p => String.eqb k (fst p)) r)) as Hi by (apply filter_In; split; [exact E|apply String.eqb_refl]).
      destruct (filter (fun p => String.eqb k (fst p)) r); [destruct Hi|cbn in N; lia]. }
    cbn [put_kws] in H; destruct (put_kw c [] true kw d k v) as [d1|x] eqn:E; cbn [bindR] in H; [|discriminate H].
    rewrite (put_kws_frame _ _ _ _ _ P _ _ _ H N0).
    assert (E1 : put_kws c [] true kw [(k, v)] d = Ok d1) by (cbn [put_kws]; rewrite E; reflexivity).
    rewrite (put_kws_key c kw [(k, v)] d d1 k E1) by (try assumption; repeat constructor; intros []).
    unfold fget; cbn [dget]; rewrite String.eqb_refl; reflexivity.
  - cbn [put_kws] in H; destruct (put_kw c [] true kw d q v) as [d1|x] eqn:E; cbn [bindR] in H; [|discriminate H].
    apply (IH _ _ H N); rewrite (put_kw_frame _ _ _ _ _ _ _ _ _ E); [exact Hd|].
    intros Z; apply Ne; symmetry; apply plain_only; assumption.
Qed.

Lemma plain_time : plain_key "time". Proof. unfold plain_key; cbn; intuition discriminate. Qed.
Lemma plain_work : plain_key "time_of_work". Proof. unfold plain_key; cbn; intuition discriminate. Qed.
Lemma stored_time : forall c v, v <> Some VNone -> stored c "time" v = v.
Proof. intros c [[]|] H; try reflexivity; contradiction. Qed.
Lemma stored_work : forall c v, v <> Some VNone -> stored c "time_of_work" v = v.
Proof. intros c [[]|] H; try reflexivity; contradiction. Qed.

Lemma handle_times : forall c w args kw f, handle_fields c w true args kw = Ok f -> occ "time" kw <= 1 -> occ "time_of_work" kw <= 1 ->
  fget kw "time" <> Some VNone -> fget kw "time_of_work" <> Some VNone ->
  fget f "time" = Some (match fget kw "time" with Some v => v | None => now w end) /\ fget f "time_of_work" = fget kw "time_of_work".
Proof.
  intros c w args kw f H O1 O2 V1 V2; unfold handle_fields in H.
  destruct (prepare c [] true args kw) as [p|] eqn:Ep; cbn [bindR] in H; [|discriminate H].
  assert (Pk : forall k, plain_key k -> k <> "message" -> occ k kw <= 1 -> fget p k = stored c k (fget kw k)).
  { intros k Pl Nm Oc; unfold prepare in Ep; destruct (put_args c args) as [d|] eqn:Ea; cbn [bindR] in Ep; [|discriminate Ep].
    apply (put_kws_once c kw k Pl kw d p Ep Oc); unfold put_args in Ea.
    destruct (match args with _ :: _ :: _ => _ | _ => _ end); cbn [bindR] in Ea; [|discriminate Ea]; injection Ea as <-.
    destruct args; [reflexivity|]; unfold fget; cbn [dget]; destruct (String.eqb_spec k "message"); [contradiction|reflexivity]. }
  set (f2 := match c_service c with Some s => fset (fset p "auto" (VBool false)) "service_name" (VStr s) | None => fset p "auto" (VBool false) end) in *.
  assert (F2 : forall k, k <> "auto" -> k <> "service_name" -> fget f2 k = fget p k).
  { intros k K1 K2; unfold f2; destruct (c_service c); repeat rewrite fset_other by assumption; reflexivity. }
  destruct (extract_exception c w f2 true true) as [f3|] eqn:Ex; cbn [bindR] in H; [|discriminate H]; injection H as H.
  assert (F3 : forall k, ~ In k touched -> fget f3 k = fget p k).
  { intros k Nk; unfold touched in Nk; cbn [In] in Nk; rewrite (extract_other _ _ _ _ _ _ k Ex) by (cbn [In]; tauto).
    apply F2; intros ->; tauto. }
  assert (T3 : fget f3 "time" = fget p "time").
  { rewrite (extract_other _ _ _ _ _ _ "time" Ex) by (cbn [In]; intuition discriminate); apply F2; discriminate. }
  assert (F4 : forall k, k <> "function" -> k <> "module" -> fget (extract_function f3) k = fget f3 k).
  { intros k K1 K2; unfold extract_function; destruct (fget f3 "function") as [[]|]; try reflexivity;
      destruct module; repeat rewrite fset_other by assumption; reflexivity. }
  split.
  - rewrite <- H; unfold defaults; cbv zeta.
    assert (G : fget (match fget (extract_function f3) "level" with Some _ => extract_function f3 | None =>
        fset (extract_function f3) "level" (VInt (if succeeded (extract_function f3) then c_default c else c_error c)) end) "time" = fget kw "time").
    { rewrite <- (stored_time c _ V1), <- (Pk "time" plain_time ltac:(discriminate) O1), <- T3.
      destruct (fget (extract_function f3) "level"); [|rewrite fset_other by discriminate]; apply F4; discriminate. }
    destruct (fget (match fget (extract_function f3) "level" with Some _ => _ | None => _ end) "time") as [v|] eqn:E; rewrite <- G; [rewrite E; reflexivity|].
    apply fset_same.
  - rewrite <- (stored_work c _ V2), <- (Pk "time_of_work" plain_work ltac:(discriminate) O2), <- (F3 "time_of_work"), <- H by (unfold touched; cbn; intuition discriminate).
    rewrite <- (F4 "time_of_work") by discriminate; unfold defaults.
    destruct (fget (extract_function f3) "level"); [|destruct (fget (fset _ "level" _) "time"); repeat rewrite fset_other by discriminate; reflexivity].
    destruct (fget (extract_function f3) "time"); repeat rewrite fset_other by discriminate; reflexivity.
Qed.

Lemma message_times : forall c w args kw f, message_fields c w args kw = Ok (Some f) -> no_times kw -> no_times f.
Proof.
  intros c w args kw f H [N1 N2]; unfold message_fields in H.
  destruct (prepare c ["function"] false args kw) as [p|] eqn:Ep; cbn [bindR] in H; [|discriminate H].
  destruct (extract_exception c w p false false) as [f1|] eqn:Ex; cbn [bindR] in H; [|discriminate H].
  assert (f = f1) as -> by (destruct f1; [discriminate H|injection H as <-; reflexivity]).
  assert (Pk : forall k, plain_key k -> k <> "message" -> fget kw k = None -> fget p k = None).
  { intros k Pl Nm Nk; unfold prepare in Ep; destruct (put_args c args) as [d|] eqn:Ea; cbn [bindR] in Ep; [|discriminate Ep].
    rewrite (put_kws_frame _ _ _ _ _ Pl _ _ _ Ep Nk); unfold put_args in Ea.
    destruct (match args with _ :: _ :: _ => _ | _ => _ end); cbn [bindR] in Ea; [|discriminate Ea]; injection Ea as <-.
    destruct args; [reflexivity|]; unfold fget; cbn [dget]; destruct (String.eqb_spec k "message"); [contradiction|reflexivity]. }
  split; rewrite (extract_other _ _ _ _ _ _ _ Ex) by (cbn [In]; intuition discriminate).
  - apply (Pk _ plain_time); [discriminate|exact N1].
  - apply (Pk _ plain_work); [discriminate|exact N2].
Qed.

Lemma convert_times : forall c args kw d, convert_arguments c args kw = Ok d -> no_times kw -> no_times d.
Proof.
  intros c args kw d H [N1 N2]; unfold convert_arguments in H; destruct args as [|a [|b r]]; [injection H as <-; split; assumption| |].
  - destruct a; try discriminate H; match type of H with bindR ?x _ = _ => destruct x; cbn [bindR] in H; [|discriminate H] end; injection H as <-.
    split; rewrite fset_other by discriminate; assumption.
  - destruct a; discriminate H.
Qed.

(** * Lists *)

Lemma records_app : forall a b, records (a ++ b) = records a ++ records b.
Proof. induction a as [|[] r IH]; intros b; cbn; rewrite ?IH; reflexivity. Qed.
Lemma pairwise_app : forall (A : Type) (R : A -> A -> Prop) a b, pairwise R a -> pairwise R b -> (forall x y, In x a -> In y b -> R x y) -> pairwise R (a ++ b).
Proof.
  intros A R; induction a as [|x r IH]; intros b Ha Hb Hx; [exact Hb|]; destruct Ha as [H1 H2]; cbn [app pairwise]; split.
  - intros y Hy; apply in_app_or in Hy; destruct Hy as [Hy|Hy]; [exact (H1 y Hy)|apply Hx; [left; reflexivity|exact Hy]].
  - apply IH; [exact H2|exact Hb|]; intros u v Hu Hv; apply Hx; [right; exact Hu|exact Hv].
Qed.

(** * The pieces *)

Section Pieces.
  Variable W : cenv.
  Variable clock : nat -> Z.
  Variable stamp : Z -> val.
  Variable span : Z -> val.
  Hypothesis stamp_some : forall z, stamp z <> VNone.
  Hypothesis span_some : forall z, span z <> VNone.
  Let at_ := at_ W stamp span.

  Definition is_auto (k : kind) : Prop := match k with KNorm _ | KExc _ _ => True | _ => False end.

  Lemma after_tells : forall t a b p ar kw n o s s' o', after (at_ t a b) p ar kw n o s = (s', o') -> (forall m, msg s = Some m -> no_times m) ->
    (msg s' = msg s \/ msg s' = None) /\ exists evs, tr s' = tr s ++ evs /\ (records evs = [] \/ exists k f, is_auto k /\ records evs = [(k, f)] /\
      fget f "time" = Some (stamp t) /\ fget f "time_of_work" = Some (span (b - a)%Z)).
  Proof.
    intros t a b p ar kw n o s s' o' H Nm.
    assert (Cc : forall f k, (k = "time" \/ k = "time_of_work") -> fget (copy_context s f) k = fget f k).
    { intros f k Hk; unfold copy_context; destruct (msg s) as [m|]; [|reflexivity]; destruct (Nm m eq_refl); apply update_none; destruct Hk as [-> | ->]; assumption. }
    assert (Po : forall f k q x, k <> q -> fget (put_opt f q x) k = fget f k).
    { intros f k q [x|] Hk; [apply fset_other; exact Hk|reflexivity]. }
    assert (Ba : fget (base (at_ t a b) p) "time" = Some (stamp t)) by (unfold base; apply fset_same).
    unfold after in H; destruct o as [v|e].
    - destruct (log_normal (at_ t a b) p ar kw n v s) as [s1 r] eqn:E.
      assert (T : tr s' = tr s1 /\ msg s' = msg s1) by (destruct r; cbn in H; injection H as <- _; split; reflexivity); destruct T as [T M].
      destruct (log_normal_cases _ _ _ _ _ _ _ _ _ E) as [[-> _]|[[_ [-> _]]|[_ [_ [l [rr [iv [_ [_ [_ [_ ->]]]]]]]]]]]; rewrite T, M.
      + split; [left; reflexivity|]; exists []; rewrite app_nil_r; auto.
      + split; [right; reflexivity|]; exists [ELost n]; auto.
      + split; [right; reflexivity|]; eexists [_]; split; [reflexivity|]; right; exists (KNorm n); eexists; split; [exact Logic.I|split; [reflexivity|]].
        split; rewrite Po by discriminate; rewrite Cc by auto; unfold auto_norm; rewrite Po by discriminate.
        * rewrite !fset_other by discriminate; exact Ba.
        * rewrite fset_other by discriminate; apply fset_same.
    - destruct (e_exc e); [|injection H as <- <-; split; [left; reflexivity|]; exists []; rewrite app_nil_r; auto].
      destruct (log_exception (at_ t a b) p ar kw n e s) as [s1 r] eqn:E.
      assert (T : tr s' = tr s1 /\ msg s' = msg s1) by (destruct r; [destruct (p_all p || is_suppressed _ (cf s1) e (p_supp p))|cbn in H]; injection H as <- _; split; reflexivity); destruct T as [T M].
      destruct (log_exception_cases _ _ _ _ _ _ _ _ _ E) as [[-> _]|[[_ [_ [-> _]]]|[_ [_ [_ [_ [tx [iv [_ [_ ->]]]]]]]]]]; rewrite T, M.
      + split; [left; reflexivity|]; exists []; rewrite app_nil_r; auto.
      + split; [left; reflexivity|]; exists []; rewrite app_nil_r; auto.
      + split; [right; reflexivity|]; eexists [_]; split; [reflexivity|]; right; exists (KExc n e); eexists; split; [exact Logic.I|split; [reflexivity|]].
        split; rewrite Po by discriminate; rewrite Cc by auto; unfold auto_exc; rewrite Po by discriminate.
        * rewrite !fset_other by discriminate; exact Ba.
        * rewrite fset_other by discriminate; apply fset_same.
  Qed.

  (** An object is as before, as far as the times are concerned. *)
  Definition like (x y : fin) : Prop :=
    f_kw y = f_kw x /\ f_entered y = f_entered x /\ fget (f_data y) "time" = fget (f_data x) "time" /\
    (occ "time" (f_data x) <= 1 -> occ "time" (f_data y) <= 1) /\ (occ "time_of_work" (f_data x) <= 1 -> occ "time_of_work" (f_data y) <= 1).
  Lemma like_refl : forall x, like x x. Proof. intros x; repeat split; auto. Qed.
  Lemma like_trans : forall x y z, like x y -> like y z -> like x z.
  Proof. intros x y z (A1 & A2 & A3 & A4 & A5) (B1 & B2 & B3 & B4 & B5); repeat split; try congruence; auto. Qed.
  Definition alike (s s' : st) : Prop := forall j, like (get_fin s j) (get_fin s' j).
  Lemma alike_refl : forall s s', fins s' = fins s -> alike s s'.
  Proof. intros s s' E j; unfold get_fin; rewrite E; apply like_refl. Qed.
  Lemma alike_trans : forall a b c, alike a b -> alike b c -> alike a c.
  Proof. intros a b c H1 H2 j; exact (like_trans _ _ _ (H1 j) (H2 j)). Qed.
  Lemma get_put : forall s i x j, get_fin (put_fin s i x) j = if Nat.eqb j i && Nat.ltb i (length (fins s)) then x else get_fin s j.
  Proof. intros s i x j; unfold get_fin, put_fin; cbn [fins set_fins]; apply replace_nth. Qed.
  Lemma alike_put : forall s i x, like (get_fin s i) x -> alike s (put_fin s i x).
  Proof.
    intros s i x H j; rewrite get_put; destruct (Nat.eqb_spec j i) as [->|]; [|apply like_refl]; cbn [andb].
    destruct (Nat.ltb i (length (fins s))); [exact H|apply like_refl].
  Qed.

  Lemma manual_tells : forall t a b k args kw s s' r, manual (at_ t a b) k args kw s = (s', r) -> occ "time" kw <= 1 -> occ "time_of_work" kw <= 1 ->
    fget kw "time" <> Some VNone -> fget kw "time_of_work" <> Some VNone ->
    exists evs, tr s' = tr s ++ evs /\ (records evs = [] \/ exists f, records evs = [(k, f)] /\
      fget f "time" = Some (match fget kw "time" with Some v => v | None => stamp t end) /\ fget f "time_of_work" = fget kw "time_of_work").
  Proof.
    intros t a b k args kw s s' r H O1 O2 V1 V2; unfold manual in H.
    destruct (handle (cf s) (ce (at_ t a b)) true (is_off s) args kw) as [[f|]|x] eqn:E; injection H as <- <-.
    - exists [ERec k f]; split; [reflexivity|]; right; exists f; split; [reflexivity|].
      unfold handle in E; destruct (handle_fields (cf s) (ce (at_ t a b)) true args kw) as [g|] eqn:Eh; cbn [bindR] in E; [|discriminate E].
      assert (f = g) as ->.
      { destruct (fget g "level") as [[]|]; try discriminate E; destruct (_ <=? _)%Z; [|discriminate E]; destruct (is_off s); [discriminate E|injection E as <-; reflexivity]. }
      destruct (handle_times _ _ _ _ _ Eh O1 O2 V1 V2) as [T1 T2]; split; [exact T1|exact T2].
    - exists []; rewrite app_nil_r; auto.
    - exists []; rewrite app_nil_r; auto.
  Qed.

  Lemma leave_tells : forall t a b i o s s' o' z, leave (at_ t a b) s i o = (s', o') ->
    occ "time" (f_data (get_fin s i)) <= 1 -> occ "time_of_work" (f_data (get_fin s i)) <= 1 -> fget (f_data (get_fin s i)) "time" = Some (stamp z) ->
    alike s s' /\ rstack s' = rstack s /\ msg s' = msg s /\ exists evs, tr s' = tr s ++ evs /\ (records evs = [] \/ exists f, records evs = [(KBlock i, f)] /\
      fget f "time" = Some (stamp z) /\ fget f "time_of_work" = Some (span (b - a)%Z)).
  Proof.
    intros t a b i o s s' o' z H O1 O2 T; pose proof (leave_frame _ _ _ _ _ _ H) as (F1 & _ & _ & _ & _ & F2 & _).
    split; [|split; [exact F1|split; [exact F2|]]]; unfold leave in H.
    - match type of H with (match ?x with _ => _ end) = _ => destruct x as [d|y] eqn:Ed end.
      2: { cbn in H; injection H as <- <-; apply alike_refl; reflexivity. }
      cbv zeta in H; set (x := mkFin _ _ _ _ _ _ _) in H.
      pose proof (manual_frame (at_ t a b) (KBlock i) [] (fset d "time_of_work" (dur (at_ t a b))) (put_fin s i x)) as Fm.
      destruct (manual (at_ t a b) (KBlock i) [] (fset d "time_of_work" (dur (at_ t a b))) (put_fin s i x)) as [s2 r] eqn:Em; cbn [fst] in Fm; cbv zeta in Fm.
      assert (Q : fins s' = fins s2).
      { destruct r as [u|y]; [|cbn in H; injection H as <- <-; reflexivity].
        destruct o as [v|e]; [injection H as <- <-; reflexivity|].
        destruct (f_all (get_fin s i)); [injection H as <- <-; reflexivity|].
        destruct (match f_supp (get_fin s i) with [] => _ | _ => _ end); injection H as <- <-; reflexivity. }
      eapply alike_trans; [apply (alike_put s i x)|apply alike_refl; rewrite Q; apply Fm].
      assert (D : fget d "time" = fget (f_data (get_fin s i)) "time" /\ occ "time" d <= 1 /\ occ "time_of_work" d <= 1).
      { destruct o as [v|e].
        - injection Ed as <-; split; [apply fset_other; discriminate|]; split; apply occ_fset; assumption.
        - destruct (estr _ e); cbn [bindR] in Ed; [|discriminate Ed]; injection Ed as <-.
          split; [rewrite !fset_other by discriminate; reflexivity|]; split; repeat apply occ_fset; assumption. }
      destruct D as (D1 & D2 & D3); unfold x; repeat split; cbn [f_data]; intros.
      + rewrite fset_other by discriminate; exact D1.
      + apply occ_fset; exact D2.
      + apply occ_fset; exact D3.
    - match type of H with (match ?x with _ => _ end) = _ => destruct x as [d|y] eqn:Ed end.
      2: { cbn in H; injection H as <- <-; exists []; rewrite app_nil_r; auto. }
      cbv zeta in H; set (x := mkFin _ _ _ _ _ _ _) in H.
      destruct (manual (at_ t a b) (KBlock i) [] (fset d "time_of_work" (dur (at_ t a b))) (put_fin s i x)) as [s2 r] eqn:Em.
      assert (D : fget d "time" = fget (f_data (get_fin s i)) "time" /\ occ "time" d <= 1 /\ occ "time_of_work" d <= 1).
      { destruct o as [v|e].
        - injection Ed as <-; split; [apply fset_other; discriminate|]; split; apply occ_fset; assumption.
        - destruct (estr _ e); cbn [bindR] in Ed; [|discriminate Ed]; injection Ed as <-.
          split; [rewrite !fset_other by discriminate; reflexivity|]; split; repeat apply occ_fset; assumption. }
      destruct D as (D1 & D2 & D3).
      assert (Q : tr s' = tr s2).
      { destruct r as [u|y]; [|cbn in H; injection H as <- <-; reflexivity].
        destruct o as [v|e]; [injection H as <- <-; reflexivity|].
        destruct (f_all (get_fin s i)); [injection H as <- <-; reflexivity|].
        destruct (match f_supp (get_fin s i) with [] => _ | _ => _ end); injection H as <- <-; reflexivity. }
      destruct (manual_tells t a b (KBlock i) [] _ _ _ _ Em) as (evs & Te & C).
      + apply occ_fset; exact D2.
      + apply occ_fset; exact D3.
      + rewrite fset_other by discriminate; rewrite D1, T; intros Z; injection Z as Z; exact (stamp_some _ Z).
      + rewrite fset_same; intros Z; injection Z as Z; exact (span_some _ Z).
      + exists evs; rewrite Q; split; [exact Te|]; destruct C as [C|(f & C & C1 & C2)]; [left; exact C|right; exists f; split; [exact C|]].
        rewrite fset_other in C1 by discriminate; rewrite D1, T in C1; rewrite fset_same in C2; split; assumption.
  Qed.

  Lemma edit_alike : forall s i args kw, no_times kw -> alike s (fst (edit s i args kw)).
  Proof.
    intros s i args kw N; unfold edit; destruct (f_entered (get_fin s i)) eqn:En.
    - destruct (convert_arguments (cf s) args kw) as [d|z] eqn:Ec; cbn [fst]; [|apply alike_refl; reflexivity].
      destruct (convert_times _ _ _ _ Ec N) as [N1 N2]; apply alike_put; repeat split; cbn [f_data f_entered]; auto; intros.
      + apply update_none; exact N1.
      + apply update_occ; assumption.
      + apply update_occ; assumption.
    - destruct (negb (Nat.eqb (length args) 1) && negb (Nat.eqb (length kw) 0)); [apply alike_refl; reflexivity|].
      destruct args; [apply alike_refl; reflexivity|]; destruct (f_used (get_fin s i)); [apply alike_refl; reflexivity|]; cbn [fst].
      apply alike_put; repeat split; auto.
  Qed.
  Lemma supp_alike : forall s i vs, alike s (fst (add_supp W s i vs)).
  Proof.
    intros s i vs; unfold add_supp; destruct (suppress _ _ _ _ _ _) as [[all l]|z]; cbn [fst]; [|apply alike_refl; reflexivity].
    apply alike_put; repeat split; auto.
  Qed.
  Lemma partial_alike : forall s i kw supp, no_times kw -> alike s (fst (partial_enter W s i kw supp)).
  Proof.
    intros s i kw supp N; unfold partial_enter; destruct supp; [|apply edit_alike; exact N].
    eapply alike_trans; [apply edit_alike; exact N|apply supp_alike].
  Qed.

  (** * The invariant *)

  Definition fin_ok (b : Z) (x : fin) : Prop :=
    no_times (f_kw x) /\ occ "time" (f_data x) <= 1 /\ occ "time_of_work" (f_data x) <= 1 /\
    (f_entered x = true -> fget (f_data x) "time" = Some (stamp b)).
  Lemma fin_ok_like : forall b x y, like x y -> fin_ok b x -> fin_ok b y.
  Proof.
    intros b x y (L1 & L2 & L3 & L4 & L5) (F1 & F2 & F3 & F4); repeat split; try (rewrite L1; apply F1); auto.
    rewrite L2, L3; exact F4.
  Qed.
  Definition K (C : cst) : Prop :=
    (forall i, fin_ok (begun_at C i) (get_fin (cs C) i)) /\ (forall m, msg (cs C) = Some m -> no_times m) /\ rstack (cs C) <> Some [].

  Definition tells_at : kind * fields -> nat * nat -> Prop := tells_readings clock stamp span.
  Definition within (lo hi : nat) (ij : nat * nat) : Prop := lo <= fst ij /\ fst ij <= snd ij /\ snd ij < hi.
  Definition said (lo hi : nat) (new : list ev) : Prop :=
    exists l, Forall2 tells_at (records new) l /\ pairwise before_or_inside_readings l /\ Forall (within lo hi) l.
  Definition R (C C' : cst) : Prop :=
    tick C <= tick C' /\ rstack (cs C') = rstack (cs C) /\
    (forall i, f_entered (get_fin (cs C) i) = true -> f_entered (get_fin (cs C') i) = true /\ begun_at C' i = begun_at C i) /\
    exists new, tr (cs C') = tr (cs C) ++ new /\ said (tick C) (tick C') new.

  Lemma said_none : forall lo hi new, records new = [] -> said lo hi new.
  Proof. intros lo hi new E; exists []; rewrite E; repeat constructor. Qed.
  Lemma within_wider : forall a b a' b' x, a' <= a -> b <= b' -> within a b x -> within a' b' x.
  Proof. intros a b a' b' x H1 H2 (A & B & C); unfold within; lia. Qed.
  Lemma said_app : forall a b c n1 n2, a <= b -> b <= c -> said a b n1 -> said b c n2 -> said a c (n1 ++ n2).
  Proof.
    intros a b c n1 n2 L1 L2 (l1 & F1 & P1 & W1) (l2 & F2 & P2 & W2); exists (l1 ++ l2); split; [rewrite records_app; apply Forall2_app; assumption|split].
    - apply pairwise_app; [exact P1|exact P2|]; intros x y Hx Hy; rewrite Forall_forall in W1, W2; destruct (W1 x Hx) as (_ & _ & A), (W2 y Hy) as (B & _ & _).
      left; lia.
    - apply Forall_app; split; eapply Forall_impl; try eassumption; intros x; apply within_wider; lia.
  Qed.
  Lemma said_around : forall a b c n1 evs, a < b -> said (S a) b n1 -> b < c ->
    (records evs = [] \/ exists r, records evs = [r] /\ tells_at r (a, b)) -> said a c (n1 ++ evs).
  Proof.
    intros a b c n1 evs L (l & F & P & Wi) Lc [E|(r & E & T)].
    - exists l; rewrite records_app, E, app_nil_r; split; [exact F|split; [exact P|]]; eapply Forall_impl; [|exact Wi]; intros x; apply within_wider; lia.
    - exists (l ++ [(a, b)]); split; [rewrite records_app, E; apply Forall2_app; [exact F|constructor; [exact T|constructor]]|split].
      + apply pairwise_app; [exact P|split; [intros y []|exact Logic.I]|]; intros x y Hx [<-|[]].
        rewrite Forall_forall in Wi; destruct (Wi x Hx) as (A & B & D); right; cbn; lia.
      + apply Forall_app; split; [eapply Forall_impl; [|exact Wi]; intros x; apply within_wider; lia|].
        repeat constructor; cbn; lia.
  Qed.
  Lemma said_wider : forall a b a' b' n, a' <= a -> b <= b' -> said a b n -> said a' b' n.
  Proof. intros a b a' b' n H1 H2 (l & F & P & Wi); exists l; split; [exact F|split; [exact P|]]; eapply Forall_impl; [|exact Wi]; intros x; apply within_wider; assumption. Qed.

  Lemma R_refl : forall C, R C C.
  Proof. intros C; repeat split; auto; exists []; rewrite app_nil_r; split; [reflexivity|apply said_none; reflexivity]. Qed.
  Lemma R_trans : forall A B C, R A B -> R B C -> R A C.
  Proof.
    intros A B C (L1 & S1 & E1 & n1 & T1 & D1) (L2 & S2 & E2 & n2 & T2 & D2); split; [lia|split; [congruence|split]].
    - intros i H; destruct (E1 i H) as [H1 B1]; destruct (E2 i H1) as [H2 B2]; split; [exact H2|congruence].
    - exists (n1 ++ n2); split; [rewrite T2, T1, app_assoc; reflexivity|]; exact (said_app _ _ _ _ _ L1 L2 D1 D2).
  Qed.

  (** A step that changes nothing that matters. *)
  Lemma quiet : forall C s, alike (cs C) s -> rstack s = rstack (cs C) -> (forall m, msg s = Some m -> no_times m) ->
    (exists new, tr s = tr (cs C) ++ new /\ records new = []) -> K C -> K (with_st C s) /\ R C (with_st C s).
  Proof.
    intros C s A Rs M (new & T & N) (K1 & K2 & K3); split.
    - split; [intros i; apply (fin_ok_like _ _ _ (A i)), K1|split; [exact M|cbn; rewrite Rs; exact K3]].
    - split; [cbn; lia|split; [exact Rs|split]].
      + intros i H; split; [destruct (A i) as (_ & E & _); cbn; rewrite E; exact H|reflexivity].
      + exists new; split; [exact T|apply said_none; exact N].
  Qed.
  Lemma quiet_same : forall C s, alike (cs C) s -> rstack s = rstack (cs C) -> msg s = msg (cs C) -> tr s = tr (cs C) -> K C -> K (with_st C s) /\ R C (with_st C s).
  Proof.
    intros C s A Rs M T HK; apply quiet; auto; [|exists []; rewrite app_nil_r; auto].
    intros m Hm; rewrite M in Hm; destruct HK as (_ & K2 & _); exact (K2 m Hm).
  Qed.
  Lemma quiet_bump : forall C, K C -> K (with_st C (bump_e (cs C))) /\ R C (with_st C (bump_e (cs C))).
  Proof. intros C HK; apply quiet_same; auto; apply alike_refl; reflexivity. Qed.

  (** Entering an object. *)
  Lemma enter_K : forall C i C1, enter_at W clock stamp span C i = Some C1 -> K C ->
    K C1 /\ tick C1 = S (tick C) /\ rstack (cs C1) = rstack (cs C) /\ tr (cs C1) = tr (cs C) /\
    f_entered (get_fin (cs C1) i) = true /\ begun_at C1 i = clock (tick C) /\ fins (cs C1) <> [] /\
    (forall j, f_entered (get_fin (cs C) j) = true -> f_entered (get_fin (cs C1) j) = true /\ begun_at C1 j = begun_at C j).
  Proof.
    intros C i C1 H (K1 & K2 & K3); unfold enter_at, enter in H.
    destruct (f_used (get_fin (cs C) i) || f_entered (get_fin (cs C) i)) eqn:U; [discriminate H|]; injection H as <-.
    apply Bool.orb_false_iff in U; destruct U as [U1 U2].
    assert (L : i < length (fins (cs C))).
    { destruct (Nat.lt_ge_cases i (length (fins (cs C)))) as [L|L]; [exact L|exfalso]; unfold get_fin in U1; rewrite nth_overflow in U1 by exact L; discriminate U1. }
    set (x := mkFin _ _ _ _ _ _ _).
    assert (Gi : get_fin (put_fin (cs C) i x) i = x).
    { rewrite get_put, Nat.eqb_refl, (proj2 (Nat.ltb_lt _ _) L); reflexivity. }
    assert (Gj : forall j, j <> i -> get_fin (put_fin (cs C) i x) j = get_fin (cs C) j).
    { intros j Nj; rewrite get_put, (proj2 (Nat.eqb_neq _ _) Nj); reflexivity. }
    destruct (K1 i) as (F1 & F2 & F3 & _).
    split; [|split; [reflexivity|split; [reflexivity|split; [reflexivity|split; [cbn [cs]; rewrite Gi; reflexivity|split; [cbn; rewrite Nat.eqb_refl; reflexivity|split]]]]]].
    - split; [|split; [exact K2|exact K3]]; intros j; cbn [cs begun_at]; destruct (Nat.eqb_spec j i) as [->|Nj]; [|rewrite Gj by exact Nj; apply K1].
      rewrite Gi; unfold x; repeat split; cbn [f_kw f_data f_entered]; try apply F1.
      + apply occ_fset; exact F2.
      + apply occ_fset; exact F3.
      + intros _; apply fset_same.
    - cbn [cs]; unfold put_fin; cbn [fins set_fins]; intros Z; apply (f_equal (@length fin)) in Z; rewrite replace_length in Z; cbn in Z; lia.
    - intros j Hj; assert (Nj : j <> i) by (intros ->; rewrite U2 in Hj; discriminate Hj); cbn [cs begun_at]; rewrite Gj by exact Nj.
      rewrite (proj2 (Nat.eqb_neq _ _) Nj); split; [exact Hj|reflexivity].
  Qed.

  Lemma leave_K : forall C i o C' o', leave_at W clock stamp span C i o = (C', o') -> K C -> f_entered (get_fin (cs C) i) = true ->
    K C' /\ tick C' = S (S (tick C)) /\ rstack (cs C') = rstack (cs C) /\ begun_at C' = begun_at C /\
    (forall j, f_entered (get_fin (cs C') j) = f_entered (get_fin (cs C) j)) /\
    exists evs, tr (cs C') = tr (cs C) ++ evs /\ (records evs = [] \/ exists f, records evs = [(KBlock i, f)] /\
      fget f "time" = Some (stamp (begun_at C i)) /\ fget f "time_of_work" = Some (span (clock (tick C) - begun_at C i)%Z)).
  Proof.
    intros C i o C' o' H (K1 & K2 & K3) En; unfold leave_at in H; destruct (leave _ (cs C) i o) as [s x] eqn:E; injection H as <- _.
    destruct (K1 i) as (_ & F2 & F3 & F4).
    destruct (leave_tells _ _ _ _ _ _ _ _ (begun_at C i) E F2 F3 (F4 En)) as (A & Rs & M & evs & T & Q).
    split; [|split; [reflexivity|split; [exact Rs|split; [reflexivity|split; [|exists evs; split; [exact T|exact Q]]]]]].
    - split; [intros j; apply (fin_ok_like _ _ _ (A j)), K1|split; [cbn; rewrite M; exact K2|cbn; rewrite Rs; exact K3]].
    - intros j; destruct (A j) as (_ & Ej & _); exact Ej.
  Qed.

  Lemma exec_clock : forall q, supps (good W) q -> leaves_times q -> forall C C' o, execc W clock stamp span q C = (C', o) -> K C -> K C' /\ R C C'.
  Proof.
    induction q as [o|p a kw body IHb k IHk|full body IHb k IHk|h body IHb k IHk|args kw k IHk|f k IHk|args kw k IHk
                    |i k IHk|i vs k IHk|i args kw k IHk|i body IHb k IHk|kw supp body IHb k IHk];
      intros Hg Hl C C' o' H HK; cbn [execc] in H; cbn [supps] in Hg; cbn [leaves_times] in Hl.
    - injection H as <- <-; split; [exact HK|apply R_refl].
    - destruct Hg as [Gb Gk], Hl as [Lb Lk]; cbv zeta in H.
      set (C0 := mkCst (set_msg (emit (bump_c (cs C)) (EStart (ncall (cs C)))) None) (S (tick C)) (begun_at C)) in H.
      destruct (execc W clock stamp span body C0) as [C1 o1] eqn:E1.
      destruct (after _ p a kw (ncall (cs C)) o1 (cs C1)) as [s2 o2] eqn:E2.
      assert (K0 : K C0) by (destruct HK as (K1 & K2 & K3); split; [exact K1|split; [intros m Z; discriminate Z|exact K3]]).
      destruct (IHb Gb Lb _ _ _ E1 K0) as [KC1 (L1 & S1 & En1 & n1 & T1 & D1)].
      destruct KC1 as (K1 & K2 & K3).
      destruct (after_tells _ _ _ _ _ _ _ _ _ _ _ E2 K2) as (M2 & evs & T2 & Q2).
      pose proof (after_frame _ _ _ _ _ _ _ _ _ E2) as (F1 & F2 & _).
      set (C2 := mkCst (emit s2 (EEnd (ncall (cs C)) o2)) (S (tick C1)) (begun_at C1)) in H.
      assert (KC2 : K C2).
      { split; [intros i; unfold C2, get_fin; cbn [cs fins emit begun_at]; rewrite F2; apply K1|split].
        - cbn; intros m Hm; destruct M2 as [M2|M2]; rewrite M2 in Hm; [exact (K2 m Hm)|discriminate Hm].
        - cbn; rewrite F1; exact K3. }
      destruct (IHk _ (Gk _) (Lk _) _ _ _ H KC2) as [KC' RC']; split; [exact KC'|]; eapply R_trans; [|exact RC'].
      split; [cbn in L1; cbn; lia|split; [cbn in S1; cbn; rewrite F1, S1; reflexivity|split]].
      + intros i Hi; destruct (En1 i Hi) as [Hi1 Bi]; split; [unfold C2, get_fin; cbn [cs fins emit]; rewrite F2; exact Hi1|exact Bi].
      + exists (EStart (ncall (cs C)) :: n1 ++ (evs ++ [EEnd (ncall (cs C)) o2])); split.
        { cbn [cs tr emit C2]; rewrite T2, T1; cbn [cs tr emit C0 set_msg bump_c]; rewrite <- !app_assoc; reflexivity. }
        assert (Sd : said (tick C) (S (tick C1)) (n1 ++ (evs ++ [EEnd (ncall (cs C)) o2]))).
        { apply (said_around (tick C) (tick C1)); [cbn in L1; lia|exact D1|lia|]; rewrite records_app, app_nil_r.
          destruct Q2 as [Q2|(kd & f & Au & Q2 & Q3 & Q4)]; [left; exact Q2|right; exists (kd, f); split; [exact Q2|]].
          split; [split; [exact Q3|]|]; cbn [fst snd]; destruct kd; try contradiction; try exact Q4; cbn in L1; lia. }
        destruct Sd as (l & Sd); exists l; exact Sd.
    - destruct Hg as [Gb Gk], Hl as [Lb Lk].
      set (C0 := with_st C (set_unl (emit (cs C) (EOff full)) (Some full))) in H.
      destruct (execc W clock stamp span body C0) as [C1 o1] eqn:E1.
      assert (Q0 : K C0 /\ R C C0).
      { apply quiet; auto; [apply alike_refl; reflexivity|apply HK|exists [EOff full]; split; reflexivity]. }
      destruct Q0 as [K0 R0]; destruct (IHb Gb Lb _ _ _ E1 K0) as [K1 R1].
      assert (Q2 : K (with_st C1 (set_unl (emit (cs C1) EOn) None)) /\ R C1 (with_st C1 (set_unl (emit (cs C1) EOn) None))).
      { apply quiet; auto; [apply alike_refl; reflexivity|apply K1|exists [EOn]; split; reflexivity]. }
      destruct Q2 as [K2 R2]; destruct (IHk _ (Gk _) (Lk _) _ _ _ H K2) as [K3 R3]; split; [exact K3|].
      exact (R_trans _ _ _ R0 (R_trans _ _ _ R1 (R_trans _ _ _ R2 R3))).
    - destruct Hg as [Gb Gk], Hl as [Lb Lk]; destruct (execc W clock stamp span body C) as [C1 o1] eqn:E1.
      destruct (IHb Gb Lb _ _ _ E1 HK) as [K1 R1]; destruct (IHk _ (Gk _) (Lk _) _ _ _ H K1) as [K2 R2]; split; [exact K2|exact (R_trans _ _ _ R1 R2)].
    - destruct Hl as [Lm Lk]; destruct (message_fields (cf (cs C)) (ce W) args kw) as [[f|]|x] eqn:E.
      + destruct (quiet C (set_msg (emit (cs C) (EMsg f)) (Some f))) as [K1 R1]; auto; [apply alike_refl; reflexivity| |exists [EMsg f]; split; reflexivity|].
        { cbn; intros m Hm; injection Hm as <-; exact (message_times _ _ _ _ _ E Lm). }
        destruct (IHk _ (Hg _) (Lk _) _ _ _ H K1) as [K2 R2]; split; [exact K2|exact (R_trans _ _ _ R1 R2)].
      + exact (IHk _ (Hg _) (Lk _) _ _ _ H HK).
      + cbn in H; destruct (quiet_bump C HK) as [K1 R1]; destruct (IHk _ (Hg _) (Lk _) _ _ _ H K1) as [K2 R2]; split; [exact K2|exact (R_trans _ _ _ R1 R2)].
    - destruct (quiet_same C (set_cf (cs C) (f (cf (cs C))))) as [K1 R1]; auto; [apply alike_refl; reflexivity|].
      destruct (IHk Hg Hl _ _ _ H K1) as [K2 R2]; split; [exact K2|exact (R_trans _ _ _ R1 R2)].
    - destruct Hl as [Ln Lk]; unfold new_fin in H; destruct (convert_arguments (cf (cs C)) args kw) as [d|x] eqn:Ec; cbn [bindR] in H.
      + set (x := mkFin args kw d [] false false false) in H; set (s1 := set_fins (cs C) (fins (cs C) ++ [x])) in H.
        destruct HK as (K1 & K2 & K3).
        assert (G : forall j, get_fin s1 j = get_fin (cs C) j \/ get_fin s1 j = x /\ length (fins (cs C)) = j).
        { intros j; unfold get_fin, s1; cbn [fins set_fins]; destruct (Nat.lt_ge_cases j (length (fins (cs C)))) as [L|L]; [left; apply app_nth1; exact L|].
          rewrite app_nth2, (nth_overflow (fins (cs C))) by exact L; destruct (j - length (fins (cs C))) as [|m] eqn:Ej; [right; split; [reflexivity|lia]|left].
          cbn; destruct m; reflexivity. }
        destruct (convert_times _ _ _ _ Ec Ln) as [N1 N2].
        assert (KC : K (with_st C s1)).
        { split; [|split; [exact K2|exact K3]]; intros j; cbn [cs with_st begun_at]; destruct (G j) as [-> | [-> _]]; [apply K1|].
          unfold x; repeat split; cbn [f_kw f_data f_entered]; try apply Ln; rewrite ?(occ_none _ _ N1), ?(occ_none _ _ N2); try lia; discriminate. }
        assert (RC : R C (with_st C s1)).
        { split; [cbn; lia|split; [reflexivity|split]].
          - intros j Hj; split; [|reflexivity]; cbn [cs with_st]; destruct (G j) as [-> | [_ Ej]]; [exact Hj|exfalso].
            unfold get_fin in Hj; rewrite nth_overflow in Hj by lia; discriminate Hj.
          - exists []; rewrite app_nil_r; split; [reflexivity|apply said_none; reflexivity]. }
        destruct (IHk _ (Hg _) (Lk _) _ _ _ H KC) as [K4 R4]; split; [exact K4|exact (R_trans _ _ _ RC R4)].
      + destruct (quiet_bump C HK) as [K1 R1]; destruct (IHk _ (Hg _) (Lk _) _ _ _ H K1) as [K2 R2]; split; [exact K2|exact (R_trans _ _ _ R1 R2)].
    - destruct (f_used (get_fin (cs C) i)) eqn:U; [exact (IHk Hg Hl _ _ _ H HK)|]; cbv zeta in H.
      set (x := get_fin (cs C) i) in *; set (y := mkFin (f_args x) (f_kw x) (f_data x) (f_supp x) (f_all x) true (f_entered x)) in H.
      set (t := clock (tick C)) in H.
      pose proof (manual_frame (Clock_Model.at_ W stamp span t t t) KManual (f_args x) (f_kw x) (put_fin (cs C) i y)) as Fm.
      destruct (manual _ KManual (f_args x) (f_kw x) (put_fin (cs C) i y)) as [s2 r] eqn:Em; cbn [fst] in H, Fm; cbv zeta in Fm.
      destruct HK as (K1 & K2 & K3); destruct (K1 i) as ((N1 & N2) & _); fold x in N1, N2.
      destruct (manual_tells _ _ _ _ _ _ _ _ _ Em) as (evs & T & Q).
      { rewrite (occ_none _ _ N1); lia. } { rewrite (occ_none _ _ N2); lia. } { rewrite N1; discriminate. } { rewrite N2; discriminate. }
      rewrite N1, N2 in Q; destruct Fm as (F1 & F2 & _ & _ & _ & _ & _ & F8); cbn in F1, F8.
      assert (A : alike (cs C) s2).
      { eapply alike_trans; [apply (alike_put (cs C) i y)|apply alike_refl; exact F2]; repeat split; auto. }
      set (C2 := mkCst s2 (S (tick C)) (begun_at C)) in H.
      assert (KC : K C2).
      { split; [intros j; apply (fin_ok_like _ _ _ (A j)), K1|split; [cbn; rewrite F8; exact K2|cbn; rewrite F1; exact K3]]. }
      assert (RC : R C C2).
      { split; [cbn; lia|split; [exact F1|split]].
        - intros j Hj; split; [destruct (A j) as (_ & Ej & _); cbn; rewrite Ej; exact Hj|reflexivity].
        - exists evs; split; [exact T|]; destruct Q as [Q|(f & Q & Q1 & Q2)]; [apply said_none; exact Q|].
          exists [(tick C, tick C)]; rewrite Q; split; [constructor; [repeat split; assumption|constructor]|split; [split; [intros z []|exact Logic.I]|]].
          repeat constructor; cbn; lia. }
      destruct (IHk Hg Hl _ _ _ H KC) as [K4 R4]; split; [exact K4|exact (R_trans _ _ _ RC R4)].
    - pose proof (supp_frame W (cs C) i vs) as F; cbv zeta in F; pose proof (supp_alike (cs C) i vs) as A.
      destruct (add_supp W (cs C) i vs) as [s1 r]; cbn [fst] in F, A.
      assert (Q : K (with_st C s1) /\ R C (with_st C s1)) by (apply quiet_same; auto; apply F).
      destruct Q as [K1 R1]; destruct r; cbn [result raise_] in H.
      + destruct (IHk _ (Hg _) (Hl _) _ _ _ H K1) as [K2 R2]; split; [exact K2|exact (R_trans _ _ _ R1 R2)].
      + destruct (quiet_bump _ K1) as [K2 R2]; destruct (IHk _ (Hg _) (Hl _) _ _ _ H K2) as [K3 R3]; split; [exact K3|exact (R_trans _ _ _ R1 (R_trans _ _ _ R2 R3))].
    - destruct Hl as [Le Lk]; pose proof (edit_frame (cs C) i args kw) as F; cbv zeta in F; pose proof (edit_alike (cs C) i args kw Le) as A.
      destruct (edit (cs C) i args kw) as [s1 r]; cbn [fst] in F, A.
      assert (Q : K (with_st C s1) /\ R C (with_st C s1)) by (apply quiet_same; auto; apply F).
      destruct Q as [K1 R1]; destruct r; cbn [result raise_] in H.
      + destruct (IHk _ (Hg _) (Lk _) _ _ _ H K1) as [K2 R2]; split; [exact K2|exact (R_trans _ _ _ R1 R2)].
      + destruct (quiet_bump _ K1) as [K2 R2]; destruct (IHk _ (Hg _) (Lk _) _ _ _ H K2) as [K3 R3]; split; [exact K3|exact (R_trans _ _ _ R1 (R_trans _ _ _ R2 R3))].
    - destruct Hg as [Gb Gk], Hl as [Lb Lk]; destruct (enter_at W clock stamp span C i) as [C1|] eqn:E0.
      + destruct (execc W clock stamp span body C1) as [C2 o1] eqn:E1; destruct (leave_at W clock stamp span C2 i o1) as [C3 o2] eqn:E2.
        destruct (enter_K _ _ _ E0 HK) as (K1 & T1 & S1 & R1 & En & Bg & _ & Oth).
        destruct (IHb Gb Lb _ _ _ E1 K1) as [K2 (L2 & S2 & En2 & n2 & R2 & D2)]; destruct (En2 i En) as [En3 Bg2].
        destruct (leave_K _ _ _ _ _ E2 K2 En3) as (K3 & T3 & S3 & B3 & E3 & evs & R3 & Q).
        destruct (IHk _ (Gk _) (Lk _) _ _ _ H K3) as [K4 R4]; split; [exact K4|]; eapply R_trans; [|exact R4].
        split; [lia|split; [congruence|split]].
        * intros j Hj; destruct (Oth j Hj) as [Hj1 Bj]; destruct (En2 j Hj1) as [Hj2 Bj2]; rewrite E3, B3; split; [exact Hj2|congruence].
        * exists (n2 ++ evs); split; [rewrite R3, R2, R1, app_assoc; reflexivity|].
          rewrite T1 in D2, L2; apply (said_around (tick C) (tick C2)); [lia|exact D2|lia|].
          destruct Q as [Q|(f & Q & Q1 & Q2)]; [left; exact Q|right; exists (KBlock i, f); split; [exact Q|]].
          rewrite Bg2, Bg in Q1, Q2; split; [split; [exact Q1|exact Q2]|cbn; lia].
      + cbn in H; destruct (quiet_bump C HK) as [K1 R1]; destruct (IHk _ (Gk _) (Lk _) _ _ _ H K1) as [K2 R2]; split; [exact K2|exact (R_trans _ _ _ R1 R2)].
    - destruct Hg as [Gs [Gb Gk]], Hl as [Ln [Lb Lk]]; cbv zeta in H.
      set (i := length (fins (cs C))) in *; set (x := mkFin [] [] [] [] false false false) in H.
      set (s1 := push (set_fins (cs C) (fins (cs C) ++ [x])) i) in H.
      destruct (HK) as (K1 & K2 & K3).
      assert (G : forall j, get_fin s1 j = get_fin (cs C) j \/ get_fin s1 j = x /\ i = j).
      { intros j; unfold get_fin, s1; cbn [fins set_fins push set_stack]; destruct (Nat.lt_ge_cases j (length (fins (cs C)))) as [L|L]; [left; apply app_nth1; exact L|].
        rewrite app_nth2, (nth_overflow (fins (cs C))) by exact L; destruct (j - length (fins (cs C))) as [|m] eqn:Ej; [right; split; [reflexivity|unfold i; lia]|left].
        cbn; destruct m; reflexivity. }
      assert (KC : K (with_st C s1)).
      { split; [|split; [exact K2|cbn; destruct (rstack (cs C)); discriminate]]; intros j; cbn [cs with_st begun_at]; destruct (G j) as [-> | [-> _]]; [apply K1|].
        unfold x; repeat split; cbn; auto; discriminate. }
      destruct (enter_at W clock stamp span (with_st C s1) i) as [C2|] eqn:E0.
      2: { exfalso; unfold enter_at in E0; cbn [cs with_st] in E0.
           destruct (fresh_enter (Clock_Model.at_ W stamp span (clock (tick C)) (clock (tick C)) (clock (tick C))) (cs C)) as [s2 E2].
           cbv zeta in E2; fold i in E2; fold x in E2; fold s1 in E2; cbn [tick with_st] in E0; rewrite E2 in E0; discriminate E0. }
      destruct (enter_K _ _ _ E0 KC) as (KC2 & T2 & S2 & R2 & En & Bg & _ & Oth); cbn [cs with_st tick] in T2, S2, R2, Oth.
      pose proof (partial_frame W (cs C2) i kw supp) as F; cbv zeta in F; pose proof (partial_alike (cs C2) i kw supp Ln) as A.
      destruct (partial_enter W (cs C2) i kw supp) as [s4 [[]|z]] eqn:Ep; [|exfalso; exact (good_partial W _ _ _ _ _ _ Gs Ep)]; cbn [fst] in F, A.
      assert (Q4 : K (with_st C2 s4) /\ R C2 (with_st C2 s4)) by (apply quiet_same; auto; apply F).
      destruct Q4 as [KC4 _]; destruct F as (F1 & _ & _ & _ & _ & F6 & _).
      destruct (execc W clock stamp span (body i) (with_st C2 s4)) as [C5 o1] eqn:E1.
      destruct (IHb i (Gb i) (Lb i) _ _ _ E1 KC4) as [KC5 (L5 & S5 & En5 & n5 & R5 & D5)]; cbn [cs with_st tick begun_at] in L5, S5, En5, R5, D5.
      assert (St : rstack (cs C5) = Some (match rstack (cs C) with None => [i] | Some l => i :: l end)) by (rewrite S5, F1, S2; reflexivity).
      unfold pop in H; rewrite St in H.
      set (s6 := set_stack (cs C5) (rstack (cs C))).
      assert (H' : (let '(C7, o'0) := leave_at W clock stamp span (with_st C5 s6) i o1 in execc W clock stamp span (k o'0) C7) = (C', o')).
      { unfold s6; destruct (rstack (cs C)) as [[|y r]|]; [contradiction| |]; exact H. }
      clear H; destruct (leave_at W clock stamp span (with_st C5 s6) i o1) as [C7 o2] eqn:E7.
      assert (KC6 : K (with_st C5 s6)) by (destruct KC5 as (A1 & A2 & A3); split; [exact A1|split; [exact A2|exact K3]]).
      assert (Like : forall j, f_entered (get_fin s4 j) = f_entered (get_fin (cs C2) j)) by (intros j; apply (A j)).
      destruct (En5 i) as [En6 Bg6]; [rewrite Like; exact En|].
      destruct (leave_K _ _ _ _ _ E7 KC6 En6) as (KC7 & T7 & S7 & B7 & E8 & evs & R7 & Q); cbn [cs with_st tick begun_at] in T7, S7, B7, E8, R7, Q.
      destruct (IHk _ (Gk _) (Lk _) _ _ _ H' KC7) as [KC8 R8]; split; [exact KC8|]; eapply R_trans; [|exact R8].
      split; [lia|split; [rewrite S7; reflexivity|split]].
      + intros j Hj.
        assert (Hj1 : f_entered (get_fin s1 j) = true).
        { destruct (G j) as [-> | [_ Ej]]; [exact Hj|exfalso]; unfold get_fin in Hj; rewrite nth_overflow in Hj by (unfold i in Ej; lia); discriminate Hj. }
        destruct (Oth j Hj1) as [Hj2 Bj]; destruct (En5 j) as [Hj5 Bj5]; [rewrite Like; exact Hj2|].
        rewrite E8, B7; split; [exact Hj5|cbn in Bj; congruence].
      + exists (n5 ++ evs); split; [rewrite R7; unfold s6; cbn [tr set_stack]; rewrite R5, F6, R2, app_assoc; reflexivity|].
        rewrite T2 in D5, L5; apply (said_around (tick C) (tick C5)); [lia|exact D5|lia|].
        destruct Q as [Q|(f & Q & Q1 & Q2)]; [left; exact Q|right; exists (KBlock i, f); split; [exact Q|]].
        rewrite Bg6, Bg in Q1, Q2; split; [split; [exact Q1|exact Q2]|cbn; lia].
  Qed.
End Pieces.
