(** C64: the fields of a with-block: what log(...) was created with and what the calls of the object inside the block add. *)
From Coq Require Import Lia.
From Verif Require Import Base Handle_Model Handle_Spec Handle_Proofs Handle_Props Supp_Model Call_Model Call_Spec Call_Proofs Call_Inv Call_Struct Call_Props Whole_Props.
Local Open Scope string_scope.
Local Open Scope list_scope.

(** ** What is expected *)
(** One set of arguments: at most one positional argument, a string; it must not contradict message=, except in silent mode. *)
Definition fine (c : cfg) (args : list val) (kw : fields) : Prop :=
  args = [] \/ exists m, args = [VStr m] /\ (c_silent c = true \/ forall v, fget kw "message" = Some v -> v = VStr m).
(** What a set of arguments says about a field: the positional argument is the message. *)
Definition says (args : list val) (kw : fields) (k : string) : option val :=
  match args with
  | [VStr m] => if String.eqb k "message" then Some (VStr m) else fget kw k
  | _ => fget kw k
  end.
(** Of several sets of arguments the last one that mentions a field decides. *)
Fixpoint last_says (l : list (list val * fields)) (k : string) : option val :=
  match l with
  | [] => None
  | (a, kw) :: r => match last_says r k with Some v => Some v | None => says a kw k end
  end.
(** The fields that the end of a block is told: [first]: the arguments of log(...); [es]: of the calls inside. *)
Definition block_says (W : cenv) (o : outcome) (first : list val * fields) (es : list (list val * fields)) (k : string) : option val :=
  let given := match last_says es k with
               | Some v => Some v
               | None => if String.eqb k "time" then Some (now (ce W)) else says (fst first) (snd first) k   (* the time of the beginning *)
               end in
  if String.eqb k "time_of_work" then Some (dur W)
  else match o with
       | ORet _ => if String.eqb k "success" then Some (VBool true) else given
       | ORaise e =>
           if String.eqb k "success" then Some (VBool false)
           else if String.eqb k "exception_type" then Some (VStr (cname (ce W) (e_cls e)))
           else if String.eqb k "exception_message" then match estr (ce W) e with Ok t => Some (VStr t) | Err _ => None end
           else if String.eqb k "traceback" then Some (VStr (tbk (ce W)))
           else given
       end.
(** The body of a block that calls the object several times and then ends with [o]; an exception of such a call leaves the block. *)
Fixpoint edits (i : nat) (es : list (list val * fields)) (o : outcome) : prog :=
  match es with
  | [] => Done o
  | (a, kw) :: r => Edit i a kw (fun x => match x with ORaise e => Done (ORaise e) | ORet _ => edits i r o end)
  end.
(** with log(args, kw) as x: x(...); x(...); ... *)
Definition block (args : list val) (kw : fields) (es : list (list val * fields)) (o : outcome) : prog :=
  New args kw (fun r => match r with inl i => With i (edits i es o) Done | inr e => Done (ORaise e) end).

(** ** Proofs *)
Lemma veq_str : forall m v, veq (VStr m) v = true <-> v = VStr m.
Proof.
  intros m v; unfold veq; destruct v; cbn; split; intros H; try discriminate; try (apply String.eqb_eq in H; subst; reflexivity).
  injection H as ->; apply String.eqb_refl.
Qed.

(** C64: the arguments of log(...) and of the calls inside a block: accepted exactly if they are fine, and then each field is what they say;
    otherwise the same error is raised in every mode. *)
Theorem C64_arguments : forall c args kw, NoDup (map fst kw) ->
  (fine c args kw -> exists d, convert_arguments c args kw = Ok d /\ NoDup (map fst d) /\ forall k, fget d k = says args kw k) /\
  (~ fine c args kw -> convert_arguments c args kw = Err EIncorrectUse).
Proof.
  intros c args kw N; unfold convert_arguments, fine, says; destruct args as [|a [|b r]].
  - split; [intros _; exists kw; auto|intros F; exfalso; apply F; auto].
  - destruct a as [|b|z|m|i n t m|i n m|e|i]; try (split; [intros [F|(m0 & F & _)]; discriminate|reflexivity]).
    assert (G : forall k, fget (fset kw "message" (VStr m)) k = if String.eqb k "message" then Some (VStr m) else fget kw k) by (intros; apply fget_fset).
    destruct (fget kw "message") as [v|] eqn:M; cbn [bindR].
    + destruct (veq (VStr m) v) eqn:V; cbn [bindR].
      * split; [intros _; eexists; split; [reflexivity|split; [apply nodup_fset; exact N|exact G]]|].
        intros F; exfalso; apply F; right; exists m; split; [reflexivity|right; intros v0 Z; injection Z as <-; apply veq_str, V].
      * unfold maybe_raise; destruct (c_silent c) eqn:S; cbn [bindR].
        -- split; [intros _; eexists; split; [reflexivity|split; [apply nodup_fset; exact N|exact G]]|].
           intros F; exfalso; apply F; right; exists m; auto.
        -- split; [|reflexivity]; intros [F|(m0 & F & [Q|Q])]; [discriminate|discriminate|injection F as <-].
           specialize (Q v eq_refl); apply veq_str in Q; congruence.
    + split; [intros _; eexists; split; [reflexivity|split; [apply nodup_fset; exact N|exact G]]|].
      intros F; exfalso; apply F; right; exists m; split; [reflexivity|right; discriminate].
  - assert (Z : ~ (a :: b :: r = [] \/ exists m, a :: b :: r = [VStr m] /\ (c_silent c = true \/ forall v, fget kw "message" = Some v -> v = VStr m))) by (intros [F|(m & F & _)]; discriminate).
    split; [intros F; contradiction|intros _; destruct a; reflexivity].
Qed.

Lemma get_put : forall s i x, i < length (fins s) -> get_fin (put_fin s i x) i = x.
Proof. intros s i x L; unfold get_fin; cbn; rewrite replace_nth, Nat.eqb_refl; apply Nat.ltb_lt in L; rewrite L; reflexivity. Qed.
Lemma get_put_other : forall s i x j, j <> i -> get_fin (put_fin s i x) j = get_fin s j.
Proof. intros s i x j N; unfold get_fin; cbn; rewrite replace_nth; destruct (Nat.eqb_spec j i); [contradiction|reflexivity]. Qed.

(** C64: a call of the object inside its block: the fields it says are changed, all other fields, all other objects and everything else
    stay; nothing is written; with arguments that are not fine nothing is changed at all and an exception is raised. *)
Theorem C64_edit : forall W s i args kw, f_entered (get_fin s i) = true -> i < length (fins s) -> NoDup (map fst kw) ->
  let x := get_fin s i in
  (fine (cf s) args kw -> exists s', edit s i args kw = (s', Ok tt) /\
     (forall k, fget (f_data (get_fin s' i)) k = match says args kw k with Some v => Some v | None => fget (f_data x) k end) /\
     f_supp (get_fin s' i) = f_supp x /\ f_all (get_fin s' i) = f_all x /\ f_used (get_fin s' i) = f_used x /\ f_entered (get_fin s' i) = true /\
     (forall j, j <> i -> get_fin s' j = get_fin s j) /\
     tr s' = tr s /\ cf s' = cf s /\ msg s' = msg s /\ unl s' = unl s /\ rstack s' = rstack s /\ length (fins s') = length (fins s)) /\
  (~ fine (cf s) args kw -> forall k, exec W (Edit i args kw k) s = exec W (k (ORaise (mkE (2 * nexte s + 1) (icls W EIncorrectUse) true))) (bump_e s)).
Proof.
  intros W s i args kw En L N x; destruct (C64_arguments (cf s) args kw N) as [A B]; split.
  - intros F; destruct (A F) as (d & E & Nd & D); unfold edit; rewrite En, E; eexists; split; [reflexivity|].
    rewrite get_put by exact L; cbn [f_data f_supp f_all f_used f_entered].
    split; [intros k; rewrite update_get by exact Nd; rewrite D; reflexivity|].
    repeat split; auto; [intros j J; apply get_put_other; exact J|cbn; apply replace_length].
  - intros F k; cbn [exec]; unfold edit; rewrite En, (B F); reflexivity.
Qed.

Definition all_fine (c : cfg) (es : list (list val * fields)) : Prop := forall a kw, In (a, kw) es -> fine c a kw /\ NoDup (map fst kw).

Lemma nodup_update : forall m f, NoDup (map fst f) -> NoDup (map fst (update f m)).
Proof. induction m as [|[k v] r IH]; intros f N; [exact N|]; cbn; apply IH, nodup_fset, N. Qed.
Lemma edit_nodup : forall s i args kw s' r, edit s i args kw = (s', r) -> i < length (fins s) -> f_entered (get_fin s i) = true ->
  NoDup (map fst (f_data (get_fin s i))) -> NoDup (map fst (f_data (get_fin s' i))).
Proof.
  intros s i args kw s' r E L En N; unfold edit in E; rewrite En in E; destruct (convert_arguments (cf s) args kw) as [d|z]; injection E as <- <-; [|exact N].
  rewrite get_put by exact L; cbn; apply nodup_update, N.
Qed.

Lemma edits_run : forall W i o es s, all_fine (cf s) es -> f_entered (get_fin s i) = true -> i < length (fins s) -> NoDup (map fst (f_data (get_fin s i))) ->
  exists s', exec W (edits i es o) s = (s', o) /\
    (forall k, fget (f_data (get_fin s' i)) k = match last_says es k with Some v => Some v | None => fget (f_data (get_fin s i)) k end) /\
    NoDup (map fst (f_data (get_fin s' i))) /\ i < length (fins s') /\
    tr s' = tr s /\ cf s' = cf s /\ unl s' = unl s /\ f_all (get_fin s' i) = f_all (get_fin s i) /\ f_supp (get_fin s' i) = f_supp (get_fin s i).
Proof.
  intros W i o; induction es as [|[a kw] r IH]; intros s F En L N.
  { exists s; cbn; repeat split; auto. }
  destruct (F a kw (or_introl eq_refl)) as [Fa Na].
  destruct (C64_edit W s i a kw En L Na) as [G _]; destruct (G Fa) as (s1 & E & D & P1 & P2 & P3 & P4 & P5 & P6 & P7 & P8 & P9 & P10 & P11).
  destruct (IH s1) as (s2 & X & D2 & N2 & L2 & T2 & C2 & U2 & A2 & S2); [rewrite P7; intros a0 kw0 H; apply F; right; exact H|exact P4|rewrite P11; exact L|eapply edit_nodup; eauto|].
  exists s2; cbn [edits exec]; rewrite E; cbn [result]; split; [exact X|].
  split; [intros k; rewrite D2, D; cbn [last_says]; destruct (last_says r k); reflexivity|].
  repeat split; auto; congruence.
Qed.

(** C64: with log(args, kw) as x: x(...) ... x(...): whatever the number of the calls, the block ends with the record of the fields of
    [block_says], or without one if its level is too low or logging is off (C35); it has exactly these fields (C34_whole_record). *)
Theorem C64_block : forall W s o args kw es, NoDup (map fst kw) -> fine (cf s) args kw -> all_fine (cf s) es ->
  (forall e, o = ORaise e -> is_ok (estr (ce W) e) = true) ->
  exists s' o' d, exec W (block args kw es o) s = (s', o') /\ NoDup (map fst d) /\ (forall k, fget d k = block_says W o (args, kw) es k) /\
    tr s' = tr s ++ match handle (cf s) (ce W) true (is_off s) [] d with Ok (Some f) => [ERec (KBlock (length (fins s))) f] | _ => [] end.
Proof.
  intros W s o args kw es N F FE ST; unfold block; cbn [exec].
  destruct (C64_arguments (cf s) args kw N) as [A _]; destruct (A F) as (d & E & Nd & D); unfold new_fin; rewrite E; cbn [bindR].
  set (i := length (fins s)); set (s1 := set_fins s (fins s ++ [mkFin args kw d [] false false false])).
  assert (G1 : get_fin s1 i = mkFin args kw d [] false false false) by (unfold get_fin, s1, i; cbn; rewrite app_nth2, Nat.sub_diag by lia; reflexivity).
  assert (L1 : i < length (fins s1)) by (unfold s1, i; cbn; rewrite app_length; cbn; lia).
  unfold enter; rewrite G1; cbn [f_used f_entered orb f_args f_kw f_data f_supp f_all].
  set (s2 := put_fin s1 i _).
  assert (G2 : get_fin s2 i = mkFin args kw (fset d "time" (now (ce W))) [] false true true) by (unfold s2; apply get_put; exact L1).
  assert (L2 : i < length (fins s2)) by (unfold s2; cbn; rewrite replace_length; exact L1).
  destruct (edits_run W i o es s2) as (s3 & X & D3 & N3 & L3 & T3 & C3 & U3 & A3 & S3); [exact FE|rewrite G2; reflexivity|exact L2|rewrite G2; cbn; apply nodup_fset; exact Nd|].
  rewrite X; unfold leave; cbv zeta.
  set (dd := f_data (get_fin s3 i)) in *.
  assert (FD : forall k, fget dd k = match last_says es k with Some v => Some v | None => if String.eqb k "time" then Some (now (ce W)) else says args kw k end).
  { intros k; rewrite D3, G2; cbn [f_data]; destruct (last_says es k); [reflexivity|]; rewrite fget_fset, D; reflexivity. }
  assert (OFF : is_off s3 = is_off s) by (unfold is_off; rewrite U3, C3; reflexivity).
  assert (LV : forall d0, (forall k, k <> "time_of_work" -> fget d0 k = block_says W o (args, kw) es k) -> NoDup (map fst d0) ->
     exists s' o' d, (let d1 := fset d0 "time_of_work" (dur W) in
        let s1 := put_fin s3 i (mkFin (f_args (get_fin s3 i)) (f_kw (get_fin s3 i)) d1 (f_supp (get_fin s3 i)) (f_all (get_fin s3 i)) (f_used (get_fin s3 i)) (f_entered (get_fin s3 i))) in
        let '(s2, r) := manual W (KBlock i) [] d1 s1 in
        match r with
        | Err z => raise_ W s2 z
        | Ok _ => match o with
                  | ORet v => (s2, o)
                  | ORaise e => if f_all (get_fin s3 i) then (s2, ORet VNone)
                      else if match f_supp (get_fin s3 i) with [] => c_supp (cf s2) | l => is_suppressed (hi W) (cf s2) e l end then (s2, ORet VNone) else (s2, o)
                  end
        end) = (s', o') /\ NoDup (map fst d) /\ (forall k, fget d k = block_says W o (args, kw) es k) /\
        tr s' = tr s ++ match handle (cf s) (ce W) true (is_off s) [] d with Ok (Some f) => [ERec (KBlock i) f] | _ => [] end).
  { intros d0 G0 N0; cbv zeta; set (d1 := fset d0 "time_of_work" (dur W)).
    assert (G : forall k, fget d1 k = block_says W o (args, kw) es k).
    { intros k; unfold d1; rewrite fget_fset; destruct (String.eqb_spec k "time_of_work") as [->|Nk]; [reflexivity|apply G0, Nk]. }
    assert (Nd1 : NoDup (map fst d1)) by (apply nodup_fset; exact N0).
    set (s4 := put_fin s3 i _); unfold manual.
    assert (CF : cf s4 = cf s) by (unfold s4; cbn; rewrite C3; reflexivity).
    assert (OF : is_off s4 = is_off s) by exact OFF.
    assert (TR : tr s4 = tr s) by (unfold s4; cbn; rewrite T3; reflexivity).
    clearbody s4; rewrite CF, OF; destruct (handle (cf s) (ce W) true (is_off s) [] d1) as [[f|]|z] eqn:Eh.
    - destruct o as [v|e].
      + eexists _, _, d1; split; [reflexivity|split; [exact Nd1|split; [exact G|rewrite Eh; cbn; rewrite TR; reflexivity]]].
      + destruct (f_all (get_fin s3 i)); [|destruct (match f_supp (get_fin s3 i) with [] => _ | _ => _ end)];
          (eexists _, _, d1; split; [reflexivity|split; [exact Nd1|split; [exact G|rewrite Eh; cbn; rewrite TR; reflexivity]]]).
    - destruct o as [v|e].
      + eexists _, _, d1; split; [reflexivity|split; [exact Nd1|split; [exact G|rewrite Eh, app_nil_r; exact TR]]].
      + destruct (f_all (get_fin s3 i)); [|destruct (match f_supp (get_fin s3 i) with [] => _ | _ => _ end)];
          (eexists _, _, d1; split; [reflexivity|split; [exact Nd1|split; [exact G|rewrite Eh, app_nil_r; exact TR]]]).
    - eexists _, _, d1; split; [reflexivity|split; [exact Nd1|split; [exact G|rewrite Eh, app_nil_r; exact TR]]]. }
  destruct o as [v|e]; cbn [bindR].
  - destruct (LV (fset dd "success" (VBool true))) as (s' & o' & d' & R1 & R2 & R3 & R4); [|apply nodup_fset; exact N3|cbv zeta in R1; rewrite R1; exists s', o', d'; auto].
    intros k Nk; rewrite fget_fset, FD; unfold block_says; destruct (String.eqb_spec k "time_of_work"); [contradiction|reflexivity].
  - specialize (ST e eq_refl); destruct (estr (ce W) e) as [t|z] eqn:Es; [|discriminate]; cbn [bindR].
    destruct (LV (fset (fset (fset (fset dd "exception_type" (VStr (cname (ce W) (e_cls e)))) "exception_message" (VStr t)) "success" (VBool false)) "traceback" (VStr (tbk (ce W))))) as (s' & o' & d' & R1 & R2 & R3 & R4);
      [|repeat apply nodup_fset; exact N3|cbv zeta in R1; rewrite R1; exists s', o', d'; auto].
    intros k Nk; rewrite !fget_fset, FD; unfold block_says; rewrite Es; destruct (String.eqb_spec k "time_of_work"); [contradiction|].
    destruct (String.eqb_spec k "success") as [->|]; [reflexivity|]; destruct (String.eqb_spec k "exception_type") as [->|]; [reflexivity|].
    destruct (String.eqb_spec k "exception_message") as [->|]; [reflexivity|]; destruct (String.eqb_spec k "traceback") as [->|]; reflexivity.
Qed.

(** C64: the time given to log(...) is lost: the beginning of the block overwrites it (while one given inside the block stays). *)
Theorem C64_given_time_kept_refuted : ~ (forall W c v es s o f, exec W (block [] [("time", v)] es (ORet VNone)) (start c) = (s, o) ->
  tr s = [ERec (KBlock 0) f] -> v <> VNone -> (forall a kw, In (a, kw) es -> fget kw "time" = None) -> fget f "time" = Some v).
Proof.
  intros H; specialize (H W0 c0 (VOther 5) []); cbn in H.
  specialize (H _ _ _ eq_refl eq_refl ltac:(discriminate) ltac:(intros a kw [])); vm_compute in H; discriminate.
Qed.

(** Examples: the second call wins over the first and over log(...); what nobody mentions again stays; the level of the last call decides. *)
Definition field_of (l : list ev) (k : string) : option val := match l with [ERec (KBlock 0) f] => fget f k | _ => None end.
Example ex_edits :
  let r := exec W0 (block [VStr "begin"] [("level", VInt 9); ("module", VStr "mod")] [([VStr "first"], [("user", VOther 1)]); ([VStr "second"], [("level", VInt 4)])] (ORet VNone)) (start c0) in
  snd r = ORet VNone /\ map (field_of (tr (fst r))) ["message"; "module"; "user"; "level"; "success"] =
  [Some (VStr "second"); Some (VStr "mod"); Some (VOther 1); Some (VInt 4); Some (VBool true)].
Proof. vm_compute; split; reflexivity. Qed.
Example ex_edits_low :
  let r := exec W0 (block [VStr "begin"] [("level", VInt 9)] [([], [("level", VInt 1)])] (ORaise e0)) (start (mkCfg 3 1 5 false false None [] [] false true true false)) in
  snd r = ORaise e0 /\ tr (fst r) = [].
Proof. vm_compute; split; reflexivity. Qed.
Example ex_contradiction : convert_arguments c0 [VStr "a"] [("message", VStr "b")] = Err EIncorrectUse /\ convert_arguments c0s [VStr "a"] [("message", VStr "b")] = Ok [("message", VStr "a")].
Proof. split; reflexivity. Qed.

Print Assumptions C64_arguments.
Print Assumptions C64_edit.
Print Assumptions C64_block.
Print Assumptions C64_given_time_kept_refuted.
